(** Lemmas for the views. *)
From Coq Require Import Permutation Sorted.
From Verif Require Import Base M_Amount S_Amount L_Amount M_Date M_Names M_Ledger L_Sort L_Entries M_Web L_Web M_Page M_Views S_Page S_Views.
Local Open Scope Z_scope.

Section Zone.
Variable mid : Z -> Z.
Hypothesis Hz : zone_ok mid.
Lemma mid_lt d e : mid d < mid e <-> d < e.
Proof.
  destruct Hz as [_ M]. split; [|apply M]. intros H. destruct (Z.lt_trichotomy d e) as [X|[X|X]]; [exact X| |]; exfalso; [subst; lia|]. specialize (M _ _ X). lia.
Qed.
Lemma mid_le d e : mid d <= mid e <-> d <= e.
Proof. pose proof (mid_lt e d). lia. Qed.
Lemma utc_of_mid d : utc_day (mid d) = d \/ utc_day (mid d) = d - 1.
Proof.
  destruct Hz as [Z1 _]. specialize (Z1 d). unfold utc_day. destruct (Z_le_gt_dec (1440 * d) (mid d)).
  - left. symmetry. apply Z.div_unique with (mid d - 1440 * d); lia.
  - right. symmetry. apply Z.div_unique with (mid d - 1440 * (d - 1)); lia.
Qed.
End Zone.

(** ** ranges *)
Lemma filter_none {A} (f : A -> bool) l : (forall x, In x l -> f x = false) -> filter f l = [].
Proof. induction l as [|x l IH]; intros H; [reflexivity|]. cbn [filter]. rewrite (H x (or_introl eq_refl)). apply IH. intros; apply H; right; assumption. Qed.
Lemma filter_all {A} (f : A -> bool) l : (forall x, In x l -> f x = true) -> filter f l = l.
Proof. induction l as [|x l IH]; intros H; [reflexivity|]. cbn [filter]. rewrite (H x (or_introl eq_refl)). f_equal. apply IH. intros; apply H; right; assumption. Qed.
Lemma index_upto {A} (key : A -> Z) stop l : StronglySorted (fun p q => key p <= key q) l ->
  match find_index (fun p => stop <? key p) l with None => l | Some to => firstn to l end = filter (fun p => key p <=? stop) l.
Proof.
  induction 1 as [|x l S IH F]; [reflexivity|]. cbn [find_index filter]. destruct (stop <? key x) eqn:E.
  - replace (key x <=? stop) with false by lia. cbn [firstn]. symmetry. apply filter_none. intros y I. rewrite Forall_forall in F. specialize (F y I). lia.
  - replace (key x <=? stop) with true by lia. rewrite <- IH. destruct (find_index _ l); reflexivity.
Qed.
Lemma trim_filter_key mid ps start stop : StronglySorted (fun p q => posted mid p <= posted mid q) ps ->
  trim_range mid ps start stop = filter (fun p => (start <=? posted mid p) && (posted mid p <=? stop)) ps.
Proof.
  induction 1 as [|x l S IH F]; [reflexivity|]. unfold trim_range in *. cbn [find_index]. destruct (start <=? posted mid x) eqn:E.
  - cbn [skipn]. etransitivity; [apply (index_upto (posted mid) stop (x :: l)); constructor; assumption|]. apply filter_ext_in. intros y I.
    replace (start <=? posted mid y) with true; [reflexivity|]. rewrite Forall_forall in F. destruct I as [<-|I]; [lia|]. specialize (F y I). lia.
  - cbn [filter]. rewrite E. cbn [andb]. rewrite <- IH.
    destruct (find_index (fun p => start <=? posted mid p) l) as [i|].
    + destruct (stop <? posted mid x) eqn:E2.
      * cbn [firstn skipn]. rewrite IH. symmetry. apply filter_none. intros y I. rewrite Forall_forall in F. specialize (F y I). lia.
      * destruct (find_index (fun p => stop <? posted mid p) l); reflexivity.
    + reflexivity.
Qed.
Lemma by_day_posted mid ps : zone_ok mid -> by_day ps -> StronglySorted (fun p q => posted mid p <= posted mid q) ps.
Proof.
  intros Z S. induction S as [|x l S IH F]; constructor; [exact IH|]. rewrite Forall_forall in *. intros y I. apply (mid_le mid Z), F, I.
Qed.

(** ** sums *)
Lemma zsum_abs l : Z.abs (zsum l) <= zsum (map Z.abs l).
Proof. induction l as [|x l IH]; [cbn; lia|]. pose proof (Z.abs_triangle x (zsum l)). unfold zsum in *. cbn [map fold_right]. lia. Qed.
Lemma zsum_nonneg l : 0 <= zsum (map Z.abs l).
Proof. unfold zsum. induction l as [|x l IH]; cbn [map fold_right]; lia. Qed.
Lemma small_app a b : small (a ++ b) -> small a /\ small b.
Proof. unfold small. rewrite map_app, zsum_app. pose proof (zsum_nonneg a). pose proof (zsum_nonneg b). lia. Qed.
Lemma small_sum l : small l -> Z.abs (zsum l) <= 2 ^ 53.
Proof. unfold small. pose proof (zsum_abs l). lia. Qed.
Lemma web_add_same conv a b : a_com a = a_com b -> Z.abs (a_int a + a_int b) <= 2 ^ 53 -> web_add conv a b = Ok (mkAmount (a_int a + a_int b) (a_com a)).
Proof. intros E H. unfold web_add. rewrite E, eq_commodity_refl. rewrite to_num_exact by exact H. reflexivity. Qed.

(** ** the running totals of a register *)
Lemma running_spec mid conv c : forall ps before total, in_commodity c ps -> a_com total = c -> a_int total = zsum before -> small (before ++ ints ps) ->
  exists l, running mid conv total ps = Ok l /\ map fst l = ps /\
    forall l1 p x l2, l = l1 ++ (p, x) :: l2 -> x = mkAmount (zsum (before ++ ints (map fst l1 ++ [p]))) c.
Proof.
  induction ps as [|p ps IH]; intros before total F Hc Hi Hs.
  - exists []. repeat split. intros [|? ?] ? ? ? E; discriminate.
  - inversion_clear F as [|? ? F1 F2]. cbn [ints map] in Hs. cbn [running].
    assert (E : web_add (conv (posted mid p)) total (pp_qty p) = Ok (mkAmount (zsum (before ++ [a_int (pp_qty p)])) c)).
    { rewrite web_add_same; [|congruence|].
      - rewrite zsum_app, Hi, Hc. cbn [zsum fold_right]. f_equal. f_equal. lia.
      - rewrite Hi. change (a_int (pp_qty p) :: map (fun p0 => a_int (pp_qty p0)) ps) with ([a_int (pp_qty p)] ++ map (fun p0 => a_int (pp_qty p0)) ps) in Hs. rewrite app_assoc in Hs. apply small_app in Hs as [Hs _]. apply small_sum in Hs. rewrite zsum_app in Hs. cbn [zsum fold_right] in Hs. rewrite Z.add_0_r in Hs. exact Hs. }
    rewrite E. cbn [bind]. destruct (IH (before ++ [a_int (pp_qty p)]) (mkAmount (zsum (before ++ [a_int (pp_qty p)])) c) F2 eq_refl eq_refl) as (l & E1 & E2 & E3).
    { rewrite <- app_assoc. exact Hs. }
    rewrite E1. cbn [bind]. eexists. split; [reflexivity|]. split; [cbn [map fst]; rewrite E2; reflexivity|].
    intros l1 q x l2 Eq. destruct l1 as [|[q0 x0] l1]; cbn [app] in Eq.
    + injection Eq as <- <- <-. reflexivity.
    + injection Eq as <- <- Eq. rewrite (E3 _ _ _ _ Eq). cbn [map fst app ints]. rewrite <- app_assoc. reflexivity.
Qed.

(** ** the other posting of a transaction *)
Lemma other_from_spec i s l : forall j, match other_from j i s l with
  | Ok q => exists k, nth_error l k = Some q /\ (j + k)%nat <> i /\ (sign q <> s \/ s = 0) /\
                      forall k' q', (k' < k)%nat -> nth_error l k' = Some q' -> (j + k')%nat <> i -> sign q' = s /\ s <> 0
  | Fail => forall k q, nth_error l k = Some q -> (j + k)%nat <> i -> sign q = s /\ s <> 0
  | Panic => False end.
Proof.
  induction l as [|q l IH]; intros j; cbn [other_from].
  - intros [|k] q E; discriminate.
  - destruct (negb (j =? i)%nat && (negb (sign q =? s) || (s =? 0))) eqn:E.
    + exists 0%nat. split; [reflexivity|]. split; [lia|]. split; [lia|]. intros k' q' H. lia.
    + assert (Z : (j <> i -> sign q = s /\ s <> 0)) by lia. specialize (IH (S j)). destruct (other_from (S j) i s l) as [q0| |]; [|intros [|k] q1 E1 N|exact IH].
      * destruct IH as (k & K1 & K2 & K3 & K4). exists (S k). split; [exact K1|]. split; [lia|]. split; [exact K3|]. intros [|k'] q' L E1 N; [injection E1 as <-; apply Z; lia|]. apply (K4 k' q'); [lia|exact E1|lia].
      * injection E1 as <-. apply Z. lia.
      * apply (IH k q1 E1). lia.
Qed.

(** ** the range at the start *)
From Verif Require Import S_Date L_Date L_Gnucash4.
Lemma min_date_spec l : forall m, let r := fold_left (fun m x => if pt_posted x <? m then pt_posted x else m) l m in
  r <= m /\ forall x, In x l -> r <= pt_posted x.
Proof.
  induction l as [|y l IH]; intros m; cbn [fold_left].
  - split; [lia|]. intros x [].
  - specialize (IH (if pt_posted y <? m then pt_posted y else m)). cbn zeta in IH |- *. destruct IH as [I1 I2].
    destruct (pt_posted y <? m) eqn:E; (split; [lia|]; intros x [<-|I]; [lia|apply I2, I]).
Qed.
Lemma max_date_spec l : forall m, let r := fold_left (fun m x => if m <? pt_posted x then pt_posted x else m) l m in
  m <= r /\ forall x, In x l -> pt_posted x <= r.
Proof.
  induction l as [|y l IH]; intros m; cbn [fold_left].
  - split; [lia|]. intros x [].
  - specialize (IH (if m <? pt_posted y then pt_posted y else m)). cbn zeta in IH |- *. destruct IH as [I1 I2].
    destruct (m <? pt_posted y) eqn:E; (split; [lia|]; intros x [<-|I]; [lia|apply I2, I]).
Qed.
Lemma year_start d y : y <= year_of d -> go_date y 1 1 <= d.
Proof.
  rewrite mi_year. intros H. rewrite mstart_ym. etransitivity; [|apply (mi_bounds d)]. apply mstart_mono. lia.
Qed.
Lemma year_end d y : year_of d <= y -> d <= go_date y 12 31.
Proof.
  rewrite mi_year. intros H. rewrite go_date_mstart. pose proof (mi_bounds d) as [_ B].
  assert (M : mstart (mi d + 1) <= mstart (12 * y + 12 - 1 + 1)) by (apply mstart_mono; lia).
  pose proof (mstart_step (12 * y + 12 - 1)). lia.
Qed.

(** ** periods *)
Lemma floor_eq k d : floor_day k d = match k with Weekly => d - weekday d | Monthly => mstart (mi d) | Quarterly => mstart (3 * (mi d / 3)) | Yearly => mstart (12 * (mi d / 12)) end.
Proof.
  destruct k; cbn [floor_day]; [reflexivity| | |]; rewrite mstart_ym; f_equal; rewrite ?mi_year, ?mi_month; lia.
Qed.
Lemma floor_le k d : floor_day k d <= d.
Proof.
  rewrite floor_eq. destruct k; [unfold weekday; lia| | |]; (etransitivity; [|apply (mi_bounds d)]); apply mstart_mono; lia.
Qed.
Lemma floor_idem k d : floor_day k (floor_day k d) = floor_day k d.
Proof.
  rewrite (floor_eq k (floor_day k d)). destruct k; rewrite (floor_eq _ d); [unfold weekday; lia| | |]; rewrite mi_mstart; f_equal; lia.
Qed.
Lemma floor_mono k d e : d <= e -> floor_day k d <= floor_day k e.
Proof.
  intros H. rewrite !floor_eq. destruct k; [unfold weekday; lia| | |]; apply mstart_mono; pose proof (mi_mono d e H); lia.
Qed.
Lemma floor_gap k x y : floor_day k x = x -> floor_day k y = y -> x < y -> x + 7 <= y.
Proof.
  rewrite !floor_eq. intros Hx Hy L. destruct k; [unfold weekday in *; lia| | |];
  (match type of Hx with mstart ?a = _ => match type of Hy with mstart ?b = _ =>
     assert (a < b) by (destruct (Z_lt_ge_dec a b); [assumption|]; pose proof (mstart_mono b a); lia);
     pose proof (mstart_step a); pose proof (mstart_mono (a + 1) b); lia end end).
Qed.
Lemma floor_first k d : floor_day k d = d -> forall x, floor_day k x = d <-> d <= x /\ forall e, floor_day k e = e -> e <= x -> e <= d.
Proof.
  intros Hd x. split.
  - intros <-. split; [apply floor_le|]. intros e E L. rewrite <- E. apply floor_mono. exact L.
  - intros [L M]. apply Z.le_antisymm; [apply M; [apply floor_idem|apply floor_le]|]. rewrite <- Hd at 1. apply floor_mono. exact L.
Qed.
Lemma days_from_in n : forall d x, In x (days_from n d) <-> d <= x < d + Z.of_nat n.
Proof.
  induction n as [|n IH]; intros d x; cbn [days_from In]; [lia|]. rewrite IH. lia.
Qed.
Lemma days_from_sorted n : forall d, StronglySorted Z.lt (days_from n d).
Proof.
  induction n as [|n IH]; intros d; cbn [days_from]; constructor; [apply IH|]. rewrite Forall_forall. intros x I. apply days_from_in in I. lia.
Qed.
Lemma filter_ssorted {A} (R : A -> A -> Prop) f l : StronglySorted R l -> StronglySorted R (filter f l).
Proof.
  induction 1 as [|x l S IH F]; [constructor|]. cbn [filter]. destruct (f x); [constructor; [exact IH|]|exact IH].
  rewrite Forall_forall in *. intros y I. apply filter_In in I as [I _]. apply F, I.
Qed.
Lemma ticks_in mid k start stop d : zone_ok mid -> In d (ticks mid k start stop) <-> period_in mid k start stop d.
Proof.
  intros [Z1 _]. unfold ticks, period_in. rewrite filter_In, days_from_in, !andb_true_iff. specialize (Z1 d).
  split; [intros (_ & (H1 & H2) & H3); lia|]. intros (H1 & H2 & H3). split; [|lia].
  assert (L : start / 1440 - 1 <= d) by (assert (start < 1440 * (d + 1)) by lia; assert (start / 1440 < d + 1) by (apply Z.div_lt_upper_bound; lia); lia).
  assert (U : 1440 * (d - 1) < stop) by lia. assert (d - 1 <= stop / 1440) by (apply Z.div_le_lower_bound; lia). lia.
Qed.
Lemma ticks_sorted mid k start stop : StronglySorted Z.lt (ticks mid k start stop).
Proof. apply filter_ssorted, days_from_sorted. Qed.
Lemma posts_of_period mid k ps d : zone_ok mid -> floor_day k d = d -> posts_of mid k ps d = filter (in_period k d) ps.
Proof.
  intros Z Hd. apply filter_ext. intros p. unfold in_period. pose proof (utc_of_mid mid Z (floor_day k (pp_date p))) as U1. pose proof (utc_of_mid mid Z d) as U2.
  destruct (floor_day k (pp_date p) =? d) eqn:E.
  - apply Z.eqb_eq in E. rewrite E. apply Z.eqb_refl.
  - apply Z.eqb_neq in E. apply Z.eqb_neq. intros E2.
    destruct (Z.lt_trichotomy (floor_day k (pp_date p)) d) as [X|[X|X]]; [|contradiction|].
    + pose proof (floor_gap k _ _ (floor_idem k (pp_date p)) Hd X). lia.
    + pose proof (floor_gap k _ _ Hd (floor_idem k (pp_date p)) X). lia.
Qed.
Lemma filter_join {A} (R : A -> A -> Prop) (f g : A -> bool) l : StronglySorted R l -> (forall x, f x = true -> g x = true -> False) ->
  (forall x y, R x y -> g x = true -> f y = true -> False) -> filter f l ++ filter g l = filter (fun x => f x || g x) l.
Proof.
  intros S D O. induction S as [|x l S IH F]; [reflexivity|]. cbn [filter]. destruct (f x) eqn:E1; destruct (g x) eqn:E2; cbn [orb].
  - destruct (D x E1 E2).
  - cbn [app]. f_equal. exact IH.
  - rewrite (filter_none f l); [|intros y I; destruct (f y) eqn:E; [|reflexivity]; rewrite Forall_forall in F; destruct (O x y (F y I) E2 E)].
    cbn [app]. f_equal. rewrite <- IH. rewrite (filter_none f l); [reflexivity|].
    intros y I; destruct (f y) eqn:E; [|reflexivity]; rewrite Forall_forall in F; destruct (O x y (F y I) E2 E).
  - exact IH.
Qed.
Lemma concat_periods k ps : by_day ps -> forall l, StronglySorted Z.lt l ->
  concat (map (fun d => filter (in_period k d) ps) l) = filter (fun p => existsb (Z.eqb (floor_day k (pp_date p))) l) ps.
Proof.
  intros B. induction 1 as [|d l S IH F].
  - cbn [map concat existsb]. symmetry. apply filter_none. reflexivity.
  - cbn [map concat]. rewrite IH. erewrite filter_join; [|exact B| |].
    + apply filter_ext. intros p. cbn [existsb]. reflexivity.
    + intros p H1 H2. apply Z.eqb_eq in H1. apply existsb_exists in H2 as (e & I & H2). apply Z.eqb_eq in H2. rewrite Forall_forall in F. specialize (F e I). lia.
    + intros p q R H2 H1. apply Z.eqb_eq in H1. apply existsb_exists in H2 as (e & I & H2). apply Z.eqb_eq in H2. rewrite Forall_forall in F. specialize (F e I).
      pose proof (floor_mono k _ _ R). lia.
Qed.
Lemma small_filter f ps : small (ints ps) -> small (ints (filter f ps)).
Proof.
  unfold small, ints. rewrite !map_map. intros H. enough (zsum (map (fun x => Z.abs (a_int (pp_qty x))) (filter f ps)) <= zsum (map (fun x => Z.abs (a_int (pp_qty x))) ps)) by lia.
  clear H. unfold zsum. induction ps as [|p ps IH]; cbn [filter map fold_right]; [lia|]. destruct (f p); cbn [map fold_right]; lia.
Qed.
Lemma ints_app a b : ints (a ++ b) = ints a ++ ints b.
Proof. apply map_app. Qed.
Lemma sum_posts_spec conv c t : forall ps before total, in_commodity c ps -> total = mkAmount (zsum before) c -> small (before ++ ints ps) ->
  sum_posts conv t total ps = Ok (mkAmount (zsum (before ++ ints ps)) c).
Proof.
  induction ps as [|p ps IH]; intros before total F -> Hs; cbn [sum_posts ints map].
  - rewrite app_nil_r. reflexivity.
  - inversion_clear F as [|? ? F1 F2].
    assert (E : before ++ a_int (pp_qty p) :: map (fun p => a_int (pp_qty p)) ps = (before ++ [a_int (pp_qty p)]) ++ ints ps) by (rewrite <- app_assoc; reflexivity).
    rewrite E. rewrite web_add_same; cbn [a_com a_int]; [|congruence|].
    + cbn [bind]. apply IH; [exact F2| |rewrite <- E; exact Hs]. rewrite zsum_app. cbn [zsum fold_right]. rewrite Z.add_0_r. reflexivity.
    + cbn [ints map] in Hs. rewrite E in Hs. apply small_app in Hs as [Hs _]. apply small_sum in Hs. rewrite zsum_app in Hs. cbn [zsum fold_right] in Hs. rewrite Z.add_0_r in Hs. exact Hs.
Qed.
Lemma last_balance_app c a b : b <> [] -> last_balance c (a ++ b) = last_balance c b.
Proof. intros H. unfold last_balance. rewrite rev_app_distr. destruct (rev b) eqn:E; [|reflexivity]. exfalso. apply H. rewrite <- (rev_involutive b), E. reflexivity. Qed.
Lemma last_balance_last c p q : pp_bal (last (p :: q) p) = last_balance c (p :: q).
Proof.
  destruct (@exists_last _ (p :: q)) as (l & x & E); [discriminate|]. rewrite E. rewrite last_last. unfold last_balance. rewrite rev_app_distr. reflexivity.
Qed.
Lemma group_loop_spec mid conv k ps c : zone_ok mid -> in_commodity c ps -> forall l before total balance,
  Forall (fun d => floor_day k d = d) l -> total = mkAmount (zsum (ints before)) c -> balance = last_balance c before ->
  small (ints (before ++ concat (map (fun d => filter (in_period k d) ps) l))) ->
  exists gs, group_loop mid conv k ps c total balance l = Ok gs /\ map g_date gs = l /\
    forall g1 g g2, gs = g1 ++ g :: g2 ->
      g_posts g = filter (in_period k (g_date g)) ps /\ g_sum g = mkAmount (zsum (ints (g_posts g))) c /\
      g_total g = mkAmount (zsum (ints (before ++ concat (map g_posts (g1 ++ [g]))))) c /\
      g_bal g = last_balance c (before ++ concat (map g_posts (g1 ++ [g]))).
Proof.
  intros Z Hc. assert (Hf : forall f, in_commodity c (filter f ps)).
  { intros f. unfold in_commodity in *. rewrite Forall_forall in *. intros x I. apply filter_In in I as [I _]. apply Hc, I. }
  induction l as [|d l IH]; intros before total balance Fl Et Eb Hs; cbn [group_loop].
  - exists []. repeat split; destruct g1; discriminate.
  - inversion_clear Fl as [|? ? F1 F2]. cbn [map concat] in Hs. rewrite (posts_of_period mid k ps d Z F1).
    destruct (filter (in_period k d) ps) as [|p q] eqn:Ef.
    + destruct (IH before total balance F2 Et Eb Hs) as (gs & E1 & E2 & E3). rewrite E1. cbn [bind]. eexists. split; [reflexivity|]. split; [cbn [map g_date]; f_equal; exact E2|].
      intros g1 g g2 Eg. destruct g1 as [|g0 g1]; cbn [app] in Eg.
      * injection Eg as <- <-. cbn [g_date g_posts g_sum g_total g_bal app map concat ints zsum fold_right]. rewrite Ef, app_nil_r. repeat split; [exact Et|exact Eb].
      * injection Eg as <- Eg. cbn [app map concat g_posts]. apply (E3 _ _ _ Eg).
    + assert (Hs1 : small (ints (before ++ p :: q))) by (rewrite app_assoc, ints_app in Hs; apply small_app in Hs; apply Hs).
      assert (Hs2 : small (ints (p :: q))) by (rewrite ints_app in Hs1; apply small_app in Hs1; apply Hs1).
      rewrite (sum_posts_spec conv c (mid d) (p :: q) [] (mkAmount 0 c)); [|rewrite <- Ef; apply Hf|reflexivity|exact Hs2].
      cbn [bind app]. subst total. rewrite web_add_same; cbn [a_com a_int]; [|reflexivity|].
      2: { rewrite <- zsum_app, <- ints_app. apply small_sum, Hs1. }
      cbn [bind]. rewrite <- zsum_app, <- ints_app.
      destruct (IH (before ++ p :: q) (mkAmount (zsum (ints (before ++ p :: q))) c) (pp_bal (last (p :: q) p)) F2 eq_refl) as (gs & E1 & E2 & E3).
      { rewrite last_balance_app by discriminate. apply last_balance_last. }
      { rewrite <- app_assoc. exact Hs. }
      rewrite E1. cbn [bind]. eexists. split; [reflexivity|]. split; [cbn [map g_date]; f_equal; exact E2|].
      intros g1 g g2 Eg. destruct g1 as [|g0 g1]; cbn [app] in Eg.
      * injection Eg as <- <-. cbn [g_date g_posts g_sum g_total g_bal app map concat]. rewrite app_nil_r. repeat split; [symmetry; exact Ef|].
        rewrite last_balance_app by discriminate. apply last_balance_last.
      * injection Eg as <- Eg. cbn [app map concat g_posts]. destruct (E3 _ _ _ Eg) as (G1 & G2 & G3 & G4).
        repeat split; [exact G1|exact G2| |]; rewrite G3 || rewrite G4; rewrite <- app_assoc; reflexivity.
Qed.

(** ** columns *)
Lemma small_sum_app a b : small (a ++ b) -> Z.abs (zsum a) <= 2 ^ 53.
Proof. intros H. apply small_app in H as [H _]. apply small_sum, H. Qed.
Lemma sum_column_spec mid conv c d i : forall cols done acc,
  Forall (fun gs => exists g, nth_error gs i = Some g /\ g_date g = d /\ a_com (g_sum g) = c /\ a_com (g_total g) = c /\ a_com (g_bal g) = c) cols ->
  g_date acc = d -> g_posts acc = concat (map (posts_at i) done) -> g_sum acc = mkAmount (zsum (map (at_row g_sum i) done)) c ->
  g_total acc = mkAmount (zsum (map (at_row g_total i) done)) c -> g_bal acc = mkAmount (zsum (map (at_row g_bal i) done)) c ->
  small (map (at_row g_sum i) (done ++ cols)) -> small (map (at_row g_total i) (done ++ cols)) -> small (map (at_row g_bal i) (done ++ cols)) ->
  exists r, sum_column mid conv c acc (map (fun gs => nth_error gs i) cols) = Ok r /\
    g_date r = d /\ g_posts r = concat (map (posts_at i) (done ++ cols)) /\ g_sum r = mkAmount (zsum (map (at_row g_sum i) (done ++ cols))) c /\
    g_total r = mkAmount (zsum (map (at_row g_total i) (done ++ cols))) c /\ g_bal r = mkAmount (zsum (map (at_row g_bal i) (done ++ cols))) c.
Proof.
  induction cols as [|gs cols IH]; intros done acc F Ed Ep Es Et Eb H1 H2 H3; cbn [map sum_column].
  - exists acc. rewrite app_nil_r. auto 10.
  - apply Forall_cons_iff in F as [(g & Eg & Dg & C1 & C2 & C3) F2]. rewrite Eg. rewrite Ed, Dg, Z.eqb_refl.
    assert (A : forall (sel : group -> amount), (forall x, nth_error gs i = Some x -> at_row sel i gs = a_int (sel x)) ) by (intros sel x E; unfold at_row; rewrite E; reflexivity).
    assert (Q : done ++ gs :: cols = (done ++ [gs]) ++ cols) by (rewrite <- app_assoc; reflexivity).
    assert (K : forall sel a, small (map (at_row sel i) (done ++ gs :: cols)) -> a_com (sel g) = c -> a = mkAmount (zsum (map (at_row sel i) done)) c ->
      web_add (conv (mid d)) a (sel g) = Ok (mkAmount (zsum (map (at_row sel i) (done ++ [gs]))) c)).
    { intros sel a Hs Hc ->. rewrite Q, map_app in Hs. apply small_sum_app in Hs. rewrite map_app in Hs |- *. cbn [map] in Hs |- *. rewrite zsum_app in Hs |- *. rewrite (A sel g Eg) in Hs |- *. cbn [zsum fold_right] in Hs |- *. rewrite Z.add_0_r in Hs |- *.
      rewrite web_add_same; cbn [a_com a_int]; [reflexivity|congruence|exact Hs]. }
    rewrite (K g_sum _ H1 C1 Es), (K g_total _ H2 C2 Et), (K g_bal _ H3 C3 Eb). cbn [bind].
    rewrite Q. apply IH; try reflexivity; try (rewrite <- Q; assumption); [exact F2|].
    cbn [g_posts]. rewrite Ep, map_app, concat_app. cbn [map concat]. rewrite app_nil_r. unfold posts_at at 3. rewrite Eg. reflexivity.
Qed.
Lemma column_place c l gs i d : column_ok c l gs -> nth_error l i = Some d ->
  exists g, nth_error gs i = Some g /\ g_date g = d /\ a_com (g_sum g) = c /\ a_com (g_total g) = c /\ a_com (g_bal g) = c.
Proof.
  intros [<- F] H. rewrite nth_error_map in H. destruct (nth_error gs i) as [g|] eqn:E; [|discriminate]. injection H as H. exists g. rewrite Forall_forall in F. specialize (F g (nth_error_In _ _ E)). tauto.
Qed.
Lemma sum_from_spec mid conv c l cols : Forall (column_ok c l) cols -> rows_small cols -> forall first i, map g_date first = skipn i l ->
  exists r, sum_from mid conv c first i cols = Ok r /\ map g_date r = skipn i l /\ List.length r = List.length first /\
    forall j g, nth_error r j = Some g -> g_posts g = concat (map (posts_at (i + j)) cols) /\ g_sum g = mkAmount (zsum (map (at_row g_sum (i + j)) cols)) c /\
      g_total g = mkAmount (zsum (map (at_row g_total (i + j)) cols)) c /\ g_bal g = mkAmount (zsum (map (at_row g_bal (i + j)) cols)) c.
Proof.
  intros F Hs. induction first as [|g first IH]; intros i E; cbn [sum_from].
  - exists []. repeat split; try (destruct j; discriminate). exact E.
  - cbn [map] in E. assert (N : nth_error l i = Some (g_date g)).
    { clear -E. revert i E. induction l as [|x l IHl]; intros [|i] E; cbn [skipn] in E; try discriminate; [injection E as -> _; reflexivity|]. cbn [Nat.add nth_error]. apply IHl. exact E. }
    assert (E' : map g_date first = skipn (S i) l).
    { clear -E. revert i E. induction l as [|x l IHl]; intros [|i] E; cbn [skipn] in E |- *; try discriminate; [injection E as _ E; exact E|]. apply (IHl i E). }
    destruct (sum_column_spec mid conv c (g_date g) i cols [] (mkGroup (g_date g) [] (mkAmount 0 c) (mkAmount 0 c) (mkAmount 0 c))) as (x & X0 & X1 & X2 & X3 & X4 & X5); try reflexivity; try apply Hs.
    { rewrite Forall_forall in F |- *. intros gs I. apply (column_place c l gs i); [apply F, I|exact N]. }
    rewrite X0. cbn [bind]. destruct (IH (S i) E') as (r & R1 & R2 & R3 & R4). rewrite R1. cbn [bind]. eexists. split; [reflexivity|]. split; [|split].
    + cbn [map]. rewrite X1, R2, <- E', <- E. reflexivity.
    + cbn [List.length]. f_equal. exact R3.
    + intros [|j] y Ey; cbn [nth_error] in Ey; [injection Ey as <-; rewrite Nat.add_0_r; cbn [app] in X2, X3, X4, X5; auto|].
      replace (i + S j)%nat with (S i + j)%nat by lia. apply (R4 j y Ey).
Qed.
Lemma sum_all_spec mid conv c l cols : cols <> [] -> Forall (column_ok c l) cols -> rows_small cols ->
  exists r, sum_all mid conv c cols = Ok r /\ column_ok c l r /\
    forall i, posts_at i r = concat (map (posts_at i) cols) /\ at_row g_sum i r = zsum (map (at_row g_sum i) cols) /\
      at_row g_total i r = zsum (map (at_row g_total i) cols) /\ at_row g_bal i r = zsum (map (at_row g_bal i) cols).
Proof.
  intros N F Hs. destruct cols as [|g0 cols]; [contradiction|]. cbn [sum_all].
  assert (G0 : map g_date g0 = l) by (inversion_clear F as [|? ? [H _] _]; exact H).
  destruct (sum_from_spec mid conv c l (g0 :: cols) F Hs g0 0 G0) as (r & R1 & R2 & R3 & R4). exists r. split; [exact R1|]. cbn [skipn] in R2. split; [split; [exact R2|]|].
  - rewrite Forall_forall. intros g I. apply In_nth_error in I as (j & I). destruct (R4 j g I) as (_ & -> & -> & ->). auto.
  - intros i. destruct (nth_error r i) as [g|] eqn:E.
    + destruct (R4 i g E) as (P1 & P2 & P3 & P4). unfold posts_at at 1, at_row at 1 3 5. rewrite E, P1, P2, P3, P4. cbn [a_int Nat.add]. auto.
    + assert (Z0 : forall gs, In gs (g0 :: cols) -> nth_error gs i = None).
      { intros gs I. rewrite Forall_forall in F. destruct (F gs I) as [Hd _]. apply nth_error_None in E. apply nth_error_None.
        assert (L : List.length gs = List.length r) by (rewrite <- (map_length g_date gs), <- (map_length g_date r), R2, Hd; reflexivity). lia. }
      assert (Z1 : forall sel, zsum (map (at_row sel i) (g0 :: cols)) = 0).
      { intros sel. revert Z0. generalize (g0 :: cols) as L. clear. induction L as [|x L IH]; intros Z0; [reflexivity|]. cbn [map]. unfold zsum in *. cbn [fold_right].
        rewrite IH by (intros; apply Z0; right; assumption). unfold at_row. rewrite (Z0 x (or_introl eq_refl)). reflexivity. }
      assert (Z2 : concat (map (posts_at i) (g0 :: cols)) = []).
      { revert Z0. generalize (g0 :: cols) as L. clear. induction L as [|x L IH]; intros Z0; [reflexivity|]. cbn [map concat]. rewrite IH by (intros; apply Z0; right; assumption). unfold posts_at. rewrite (Z0 x (or_introl eq_refl)). reflexivity. }
      rewrite Z2, !Z1. unfold posts_at, at_row. rewrite E. auto.
Qed.

Lemma web_add_com conv a b : a_com a = a_com b -> exists x, web_add conv a b = Ok x /\ a_com x = a_com a.
Proof. intros E. unfold web_add. rewrite E, eq_commodity_refl. eexists. split; [reflexivity|]. reflexivity. Qed.
Lemma row_total_spec mid conv c d i : forall cols done sum bal,
  Forall (fun gs => exists g, nth_error gs i = Some g /\ g_date g = d /\ a_com (g_sum g) = c /\ a_com (g_total g) = c /\ a_com (g_bal g) = c) cols ->
  sum = mkAmount (zsum (map (at_row g_sum i) done)) c -> bal = mkAmount (zsum (map (at_row g_bal i) done)) c ->
  small (map (at_row g_sum i) (done ++ cols)) -> small (map (at_row g_bal i) (done ++ cols)) ->
  row_total mid conv d (map (fun gs => nth_error gs i) cols) sum bal =
    Ok (mkAmount (zsum (map (at_row g_sum i) (done ++ cols))) c, mkAmount (zsum (map (at_row g_bal i) (done ++ cols))) c).
Proof.
  induction cols as [|gs cols IH]; intros done sum bal F Es Eb H1 H3; cbn [map row_total].
  - rewrite app_nil_r, Es, Eb. reflexivity.
  - apply Forall_cons_iff in F as [(g & Eg & Dg & C1 & C2 & C3) F2]. rewrite Eg. rewrite Dg, Z.eqb_refl.
    assert (A : forall (sel : group -> amount), (forall x, nth_error gs i = Some x -> at_row sel i gs = a_int (sel x)) ) by (intros sel x E; unfold at_row; rewrite E; reflexivity).
    assert (Q : done ++ gs :: cols = (done ++ [gs]) ++ cols) by (rewrite <- app_assoc; reflexivity).
    assert (K : forall sel a, small (map (at_row sel i) (done ++ gs :: cols)) -> a_com (sel g) = c -> a = mkAmount (zsum (map (at_row sel i) done)) c ->
      web_add (conv (mid d)) a (sel g) = Ok (mkAmount (zsum (map (at_row sel i) (done ++ [gs]))) c)).
    { intros sel a Hs Hc ->. rewrite Q, map_app in Hs. apply small_sum_app in Hs. rewrite map_app in Hs |- *. cbn [map] in Hs |- *. rewrite zsum_app in Hs |- *. rewrite (A sel g Eg) in Hs |- *. cbn [zsum fold_right] in Hs |- *. rewrite Z.add_0_r in Hs |- *.
      rewrite web_add_same; cbn [a_com a_int]; [reflexivity|congruence|exact Hs]. }
    rewrite (K g_sum _ H1 C1 Es), (K g_bal _ H3 C3 Eb). cbn [bind].
    rewrite Q. apply IH; try reflexivity; try (rewrite <- Q; assumption). exact F2.
Qed.
Lemma table_spec mid conv flows c all cols : Forall (column_ok c all) cols -> rows_small cols -> forall l i cum, l = skipn i all -> a_com cum = c ->
  exists rows, table mid conv flows c cols i cum l = Ok rows /\ map tr_date rows = l /\
    forall j r, nth_error rows j = Some r ->
      tr_cells r = map (fun gs => mkAmount (at_row (if flows then g_sum else g_bal) (i + j) gs) c) cols /\
      tr_total r = mkAmount (zsum (map (at_row (if flows then g_sum else g_bal) (i + j)) cols)) c /\ tr_cum r = tr_total r.
Proof.
  intros F Hs. induction l as [|d l IH]; intros i cum E Hc; cbn [table].
  - exists []. repeat split; destruct j; discriminate.
  - assert (N : nth_error all i = Some d).
    { clear -E. revert i E. induction all as [|x all IHl]; intros [|i] E; cbn [skipn] in E; try discriminate; [injection E as -> _; reflexivity|]. cbn [nth_error]. apply IHl. exact E. }
    assert (E' : l = skipn (S i) all).
    { clear -E. revert i E. induction all as [|x all IHl]; intros [|i] E; cbn [skipn] in E |- *; try discriminate; [injection E as _ E; exact E|]. apply (IHl i E). }
    assert (P : Forall (fun gs => exists g, nth_error gs i = Some g /\ g_date g = d /\ a_com (g_sum g) = c /\ a_com (g_total g) = c /\ a_com (g_bal g) = c) cols).
    { rewrite Forall_forall in F |- *. intros gs I. apply (column_place c all gs i); [apply F, I|exact N]. }
    rewrite (row_total_spec mid conv c d i cols [] (mkAmount 0 c) (mkAmount 0 c)); try reflexivity; try apply Hs; [|exact P]. cbn [bind fst snd app].
    destruct (web_add_com (conv (mid d)) cum (mkAmount (zsum (map (at_row g_sum i) cols)) c)) as (x & X1 & X2); [exact Hc|]. rewrite X1. cbn [bind].
    destruct (IH (S i) x E') as (rows & R1 & R2 & R3); [congruence|]. rewrite R1. cbn [bind]. eexists. split; [reflexivity|]. split; [cbn [map tr_date]; f_equal; exact R2|].
    intros [|j] r Er; cbn [nth_error] in Er.
    + injection Er as <-. cbn [tr_cells tr_total tr_cum]. rewrite Nat.add_0_r. split; [|split; [destruct flows; reflexivity|reflexivity]].
      rewrite map_map. apply map_ext_in. intros gs I. rewrite Forall_forall in P. destruct (P gs I) as (g & Eg & _ & C1 & _ & C3). rewrite Eg. unfold at_row. rewrite Eg.
      destruct flows; cbn [choose]; [destruct (g_sum g) as [n k]|destruct (g_bal g) as [n k]]; cbn [a_com a_int] in *; subst; reflexivity.
    + replace (i + S j)%nat with (S i + j)%nat by lia. apply (R3 j r Er).
Qed.

(** ** balances of a subtree *)
Scheme rows_of_mind := Induction for rows_of Sort Prop with rows_list_mind := Induction for rows_list Sort Prop.
Lemma rows_in vis : forall a l, rows_of vis a l -> forall b, In b l -> beneath vis a b.
Proof.
  intros a l H. induction H as [a l H IH| |b bs l1 l2 H1 IH1 H2 IH2] using rows_of_mind with (P0 := fun bs l _ => forall x, In x l -> exists b, In b bs /\ beneath vis b x).
  - intros b [<-|I]; [constructor|]. destruct (IH b I) as (x & I1 & I2). clear -I1 I2. induction I2 as [|y z _ IH I]; [econstructor; [constructor|exact I1]|econstructor; eassumption].
  - intros x [].
  - intros x I. apply in_app_or in I as [I|I]; [exists b; split; [left; reflexivity|apply IH1, I]|]. destruct (IH2 x I) as (y & I1 & I2). exists y. split; [right; exact I1|exact I2].
Qed.
Lemma rows_child vis bs l : rows_list vis bs l -> forall b, In b bs -> exists l', rows_of vis b l' /\ incl l' l.
Proof.
  induction 1 as [|b bs l1 l2 H1 H2 IH]; intros x I; [destruct I|]. destruct I as [<-|I].
  - exists l1. split; [exact H1|]. intros y J. apply in_or_app. left. exact J.
  - destruct (IH x I) as (l' & R & J). exists l'. split; [exact R|]. intros y K. apply in_or_app. right. apply J, K.
Qed.
Lemma rows_below vis a l : rows_of vis a l -> forall b, beneath vis a b -> In b l /\ exists l', rows_of vis b l' /\ incl l' l.
Proof.
  intros H b R. induction R as [|b c R IH I].
  - split; [|exists l; split; [exact H|apply incl_refl]]. inversion H. left. reflexivity.
  - destruct IH as (_ & l' & R' & J). inversion R' as [a' l0 Rl]; subst. destruct (rows_child vis _ _ Rl c I) as (l2 & R2 & J2).
    assert (K : incl l2 l) by (intros x X; apply J; right; apply J2, X). split; [|exists l2; split; assumption]. apply K. inversion R2. left. reflexivity.
Qed.
Section BalRows.
Variables (mid : Z -> Z) (conv : Z -> conversion) (pg : page) (show : bool) (t : Z) (depth : nat) (c : commodity).
Definition bal (a : bytes) : amount := balance_at mid (pg_register pg a) (com_of pg a) t.
Definition vis (a : bytes) : list bytes := filter (fun b => negb (hidden mid pg show t depth b)) (pg_children pg a).
Definition sums_rows (rows : list row) : Prop := forall l1 r l2, rows = l1 ++ r :: l2 -> exists sub rest, r :: l2 = sub ++ rest /\
  rows_of vis (r_acc r) (map r_acc sub) /\ r_total r = mkAmount (zsum (map (fun x => a_int (bal (r_acc x))) sub)) c.
Definition nums (rows : list row) : list Z := map (fun x => a_int (bal (r_acc x))) rows.
Lemma sums_app a b : sums_rows a -> sums_rows b -> sums_rows (a ++ b).
Proof.
  intros Ha Hb l1 r l2 E. revert l1 E. induction a as [|x a IH]; intros l1 E; cbn [app] in E; [apply (Hb l1), E|].
  destruct l1 as [|y l1]; cbn [app] in E.
  - injection E as <- <-. destruct (Ha [] x a eq_refl) as (sub & rest & E1 & E2 & E3). exists sub, (rest ++ b). rewrite app_assoc, <- E1. auto.
  - injection E as <- E. apply (IH (fun k1 r' k2 E' => Ha (x :: k1) r' k2 (f_equal (cons x) E')) l1 E).
Qed.
Variable known : bytes -> Prop.
Hypothesis Hk : forall a b, known a -> In b (pg_children pg a) -> known b.
Hypothesis Hc : forall b, known b -> a_com (bal b) = c.
Definition rows_good (go : bytes -> res (list row)) : Prop := forall a rows, known a -> go a = Ok rows ->
  rows_of vis a (map r_acc rows) /\ Forall (fun r => r_bal r = bal (r_acc r)) rows /\ (small (nums rows) -> sums_rows rows).
Lemma head_total rows first rest a : rows = first :: rest -> rows_of vis a (map r_acc rows) -> sums_rows rows -> (forall l, rows_of vis a l -> l = map r_acc rows) ->
  r_total first = mkAmount (zsum (nums rows)) c.
Proof.
  intros E R S U. destruct (S [] first rest E) as (sub & rest' & E1 & E2 & E3). rewrite E3. f_equal. unfold nums. f_equal.
  assert (r_acc first = a) by (rewrite E in R; inversion R; reflexivity). subst a. specialize (U _ E2). rewrite E in U |- *. rewrite E1 in U |- *. rewrite map_app in U.
  assert (rest' = []); [|subst; rewrite app_nil_r; reflexivity]. apply (f_equal (@List.length _)) in U. rewrite app_length, !map_length in U. destruct rest'; [reflexivity|]. cbn [List.length] in U. lia.
Qed.
Lemma rows_unique : forall a l, rows_of vis a l -> forall l', rows_of vis a l' -> l' = l.
Proof.
  intros a l H. induction H as [a l H IH| |b bs l1 l2 H1 IH1 H2 IH2] using rows_of_mind with (P0 := fun bs l _ => forall l', rows_list vis bs l' -> l' = l).
  - intros l' R. inversion R as [a' l0 R0]; subst. f_equal. apply IH, R0.
  - intros l' R. inversion R. reflexivity.
  - intros l' R. inversion R as [|b' bs' k1 k2 R1 R2]; subst. rewrite (IH1 _ R1), (IH2 _ R2). reflexivity.
Qed.
Lemma child_loop_spec go : rows_good go -> forall l rows0 total rows1 total1, (forall b, In b l -> known b) ->
  child_loop mid conv pg show t depth go l rows0 total = Ok (rows1, total1) ->
  exists new, rows1 = rows0 ++ new /\ rows_list vis (filter (fun b => negb (hidden mid pg show t depth b)) l) (map r_acc new) /\
    Forall (fun r => r_bal r = bal (r_acc r)) new /\
    forall before, total = mkAmount (zsum before) c -> small (before ++ nums new) -> sums_rows new /\ total1 = mkAmount (zsum (before ++ nums new)) c.
Proof.
  intros G. induction l as [|b l IH]; intros rows0 total rows1 total1 Kl E; cbn [child_loop] in E.
  - injection E as <- <-. exists []. rewrite app_nil_r. split; [reflexivity|]. split; [constructor|]. split; [constructor|]. intros before -> _. split; [intros [|? ?] ? ? X; discriminate|]. cbn [nums map]. rewrite app_nil_r. reflexivity.
  - cbn [filter]. destruct (hidden mid pg show t depth b); cbn [negb]; [apply IH; [intros; apply Kl; right; assumption|exact E]|].
    apply bind_ok in E as (cb & Ecb & E). destruct cb as [|first rest]; [discriminate|]. apply bind_ok in E as (total2 & Et & E).
    destruct (G b _ (Kl b (or_introl eq_refl)) Ecb) as (G1 & G2 & G3). destruct (IH _ _ _ _ (fun x Ix => Kl x (or_intror Ix)) E) as (new & N1 & N2 & N3 & N4).
    exists ((first :: rest) ++ new). split; [rewrite N1, <- app_assoc; reflexivity|]. split; [rewrite map_app; constructor; assumption|]. split; [apply Forall_app; split; assumption|].
    intros before -> Hs. unfold nums in Hs. rewrite map_app in Hs. change (small (before ++ nums (first :: rest) ++ nums new)) in Hs.
    assert (Hs1 : small (nums (first :: rest))) by (apply small_app in Hs as [_ Hs]; apply small_app in Hs; apply Hs).
    specialize (G3 Hs1). rewrite (head_total (first :: rest) first rest b eq_refl G1 G3) in Et by (intros l' R; apply (rows_unique _ _ G1 _ R)).
    rewrite app_assoc in Hs. rewrite web_add_same in Et; cbn [a_com a_int] in *; [|reflexivity|]; [|rewrite <- zsum_app; apply small_sum; apply small_app in Hs; apply Hs].
    assert (Et2 : total2 = mkAmount (zsum (before ++ nums (first :: rest))) c) by (rewrite zsum_app; congruence). destruct (N4 _ Et2 Hs) as [S1 S2]. split; [apply sums_app; assumption|].
    rewrite S2. f_equal. f_equal. unfold nums. rewrite map_app, app_assoc. reflexivity.
Qed.
Lemma all_balances_spec : forall f, rows_good (all_balances mid conv pg show t depth f).
Proof.
  induction f as [|f IH]; intros a rows Ka E; cbn [all_balances] in E; [discriminate|]. apply bind_ok in E as ((rows1 & total1) & E1 & E). cbn [fst snd] in E. injection E as <-.
  destruct (child_loop_spec _ IH _ _ _ _ _ (fun b => Hk a b Ka) E1) as (new & -> & N2 & N3 & N4). cbn [app] in *. split; [cbn [map r_acc]; constructor; exact N2|]. split; [constructor; [reflexivity|exact N3]|].
  intros Hs. change (nums (mkRow a (balance_at mid (pg_register pg a) (com_of pg a) t) total1 :: new)) with ([a_int (bal a)] ++ nums new) in Hs.
  destruct (N4 [a_int (bal a)]) as [S1 S2]; [|exact Hs|].
  { specialize (Hc a Ka). unfold bal in *. destruct (balance_at mid (pg_register pg a) (com_of pg a) t) as [n k]. cbn [a_com a_int] in *. subst k. cbn [zsum fold_right]. rewrite Z.add_0_r. reflexivity. }
  intros l1 r l2 E. destruct l1 as [|r0 l1]; cbn [app] in E.
  - injection E as <- <-. eexists _, []. rewrite app_nil_r. split; [reflexivity|]. split; [cbn [map r_acc]; constructor; exact N2|]. cbn [r_total]. rewrite S2. reflexivity.
  - injection E as <- E. apply (S1 _ _ _ E).
Qed.
(** enough fuel: names of children are longer, names are not longer than [m] *)
Lemma all_balances_total m : (forall a b, In b (pg_children pg a) -> (List.length a < List.length b <= m)%nat) ->
  forall a, known a -> exists rows, all_balances mid conv pg show t depth (S (S m)) a = Ok rows.
Proof.
  intros M.
  assert (G : forall f a, known a -> (m - List.length a < f)%nat -> exists first rest, all_balances mid conv pg show t depth f a = Ok (first :: rest) /\ a_com (r_total first) = c).
  { induction f as [|f IH]; intros a Ka H; [lia|]. cbn [all_balances].
    assert (K : forall l, (forall b, In b l -> In b (pg_children pg a)) -> forall rows0 total, a_com total = c ->
      exists rows1 total1, child_loop mid conv pg show t depth (all_balances mid conv pg show t depth f) l rows0 total = Ok (rows1, total1) /\ a_com total1 = c).
    { induction l as [|b l IHl]; intros Hl rows0 total Ht; cbn [child_loop]; [eauto|]. destruct (hidden mid pg show t depth b); [apply IHl; [intros; apply Hl; right; assumption|exact Ht]|].
      specialize (M a b (Hl b (or_introl eq_refl))). destruct (IH b) as (first & rest & E1 & E2); [apply (Hk a), Hl; [exact Ka|left; reflexivity]|lia|]. rewrite E1. cbn [bind].
      destruct (web_add_com (conv t) total (r_total first)) as (x & X1 & X2); [congruence|]. rewrite X1. cbn [bind]. apply IHl; [intros; apply Hl; right; assumption|congruence]. }
    destruct (K (pg_children pg a) (fun b H => H) [] (balance_at mid (pg_register pg a) (com_of pg a) t) (Hc a Ka)) as (rows1 & total1 & E1 & E2). rewrite E1. cbn [bind fst snd]. eauto. }
  intros a Ka. destruct (G (S (S m)) a Ka) as (first & rest & E & _); [lia|]. eauto.
Qed.
End BalRows.
Lemma closed_at_spec mid accs t : (forall a pa p, find_account accs a = Some pa -> pa_parent pa = Some p -> (List.length p < List.length a)%nat) ->
  forall fuel a, (List.length a < fuel)%nat -> (closed_at mid fuel accs a t = true <-> closed_by mid accs t a).
Proof.
  intros M. induction fuel as [|f IH]; intros a L; [lia|]. cbn [closed_at]. destruct (find_account accs a) as [pa|] eqn:E.
  - rewrite orb_true_iff. split.
    + intros [H|H].
      * destruct (pa_closed pa) as [d|] eqn:Ed; [|discriminate]. apply (closed_own mid accs t a pa d E Ed). lia.
      * destruct (pa_parent pa) as [p|] eqn:Ep; [|discriminate]. apply (closed_up mid accs t a pa p E Ep). apply IH; [pose proof (M a pa p E Ep); lia|exact H].
    + intros H. inversion H as [a' pa' d E1 E2 E3|a' pa' p E1 E2 E3]; subst; rewrite E in E1; injection E1 as <-.
      * left. rewrite E2. lia.
      * right. rewrite E2. apply IH; [pose proof (M a pa p E E2); lia|exact E3].
  - split; [discriminate|]. intros H. inversion H; congruence.
Qed.
