(** Lemmas: date ranges, selections, listings, top. *)
From Coq Require Import Sorted Permutation.
From Verif Require Import Base M_Amount M_Regex L_Regex M_Parser M_Names M_Tags M_Ledger M_Report S_Amount S_Books S_Report L_Dec L_Sort L_Amount L_Names L_Registers L_Load L_Resolve L_Tree L_Balance L_Tags L_Totals L_Cumulative L_Aggregate.

(** ** trim *)
Section Trim.
Context {A : Type} (dflt : A) (date : A -> Z).
Lemma cut_spec d ps : key_order date ps -> exists lo hi, ps = lo ++ hi /\ (forall x, In x lo -> date x < d) /\ (forall x, In x hi -> d <= date x) /\
  search (List.length ps) (fun i => negb (date (nth i ps dflt) <? d)) = List.length lo /\ key_order date hi.
Proof.
  intros H. destruct (key_split date d ps H) as (lo & hi & -> & L & U & O). exists lo, hi. split; [reflexivity|]. split; [exact L|]. split; [exact U|].
  split; [|exact O]. apply (search_split (fun x => negb (date x <? d))); intros x I; [specialize (L x I)|specialize (U x I)]; lia.
Qed.
Lemma trim_filter ps b e : key_order date ps -> trim dflt date ps b e = filter (fun p => in_range b e (date p)) ps.
Proof.
  assert (Up : forall ps, key_order date ps -> trim dflt date ps None e = filter (fun p => in_range None e (date p)) ps).
  { intros ps0 H. unfold trim. destruct e as [e|]; [|symmetry; apply filter_all; intros; reflexivity].
    destruct (cut_spec e ps0 H) as (lo & hi & -> & L & U & -> & O). rewrite filter_app.
    rewrite (filter_all _ lo), (filter_none _ hi) by (intros x I; unfold in_range; try specialize (L x I); try specialize (U x I); lia).
    rewrite app_length. destruct (Nat.eqb_spec (List.length lo) (List.length lo + List.length hi)) as [E|E].
    - destruct hi; [reflexivity|cbn in E; lia].
    - rewrite firstn_app, Nat.sub_diag, firstn_all, firstn_O. reflexivity. }
  intros H. destruct b as [b|]; [|apply Up, H]. unfold trim.
  destruct (cut_spec b ps H) as (lo & hi & -> & L & U & -> & O). rewrite filter_app.
  rewrite (filter_none _ lo) by (intros x I; unfold in_range; specialize (L x I); lia).
  rewrite skipn_app, Nat.sub_diag, skipn_all. cbn [app skipn]. fold (trim dflt date hi None e).
  rewrite app_length. destruct (Nat.eqb_spec (List.length lo) (List.length lo + List.length hi)) as [E|E].
  - destruct hi; [reflexivity|cbn in E; lia].
  - rewrite (Up hi O). apply filter_ext_in. intros x I. unfold in_range. specialize (U x I). replace (b <=? date x) with true by lia. reflexivity.
Qed.
Lemma partition_filter b m e ps : key_order date ps -> (forall x, b = Some x -> x <= m) -> (forall x, e = Some x -> m <= x) ->
  filter (fun p => in_range b (Some m) (date p)) ps ++ filter (fun p => in_range (Some m) e (date p)) ps = filter (fun p => in_range b e (date p)) ps.
Proof.
  intros H Hb He. destruct (key_split date m ps H) as (lo & hi & -> & L & U & _). rewrite !filter_app.
  rewrite (filter_none (fun p => in_range b (Some m) (date p)) hi) by (intros x I; unfold in_range; specialize (U x I); lia).
  rewrite (filter_none (fun p => in_range (Some m) e (date p)) lo) by (intros x I; unfold in_range; specialize (L x I); lia).
  rewrite app_nil_r. cbn [app]. f_equal; apply filter_ext_in; intros x I; unfold in_range.
  - specialize (L x I). replace (date x <? m) with true by lia. destruct e as [e|]; [|reflexivity]. specialize (He e eq_refl). replace (date x <? e) with true by lia. reflexivity.
  - specialize (U x I). replace (m <=? date x) with true by lia. destruct b as [b|]; [|reflexivity]. specialize (Hb b eq_refl). replace (b <=? date x) with true by lia. reflexivity.
Qed.
End Trim.

(** ** running totals *)
Lemma running_all conv : forall qs total ts, running conv total qs = Ok ts ->
  List.length ts = List.length qs /\ forall i t, nth_error ts i = Some t -> add_all conv total (firstn (S i) qs) = Ok t.
Proof.
  induction qs as [|q qs IH]; intros total ts H; cbn [running] in H.
  - injection H as <-. split; [reflexivity|]. intros [|i] t E; discriminate.
  - destruct (add_in conv total q) as [t0| |] eqn:E0; try discriminate. cbn [bind] in H. destruct (running conv t0 qs) as [ts0| |] eqn:E1; try discriminate.
    injection H as <-. destruct (IH _ _ E1) as [L K]. split; [cbn; congruence|]. intros [|i] t E; cbn [nth_error] in E.
    + injection E as <-. cbn [firstn add_all]. rewrite E0. reflexivity.
    + change (firstn (S (S i)) (q :: qs)) with (q :: firstn (S i) qs). cbn [add_all]. rewrite E0. cbn [bind]. apply K, E.
Qed.
Lemma running_same conv c : forall qs t0, a_com t0 = c -> Forall (fun q => a_com q = c) qs ->
  running conv t0 qs = Ok (map (fun i => mkAmount (a_int t0 + zsum (map a_int (firstn (S i) qs))) c) (seq 0 (List.length qs))).
Proof.
  induction qs as [|q qs IH]; intros t0 C F; cbn [running]; [reflexivity|]. apply Forall_cons_iff in F as [F1 F2].
  rewrite add_in_same by congruence. cbn [bind]. rewrite IH; [|exact C|exact F2]. cbn [bind List.length seq map]. f_equal. rewrite C. f_equal.
  - cbn. f_equal. unfold zsum. cbn. lia.
  - rewrite <- seq_shift, map_map. apply map_ext. intros i. cbn [a_int]. f_equal.
    change (firstn (S (S i)) (q :: qs)) with (q :: firstn (S i) qs). cbn [map]. rewrite zsum_cons. lia.
Qed.

(** ** selections *)
Lemma register_trim_spec compile date info b e tag payee ps : in_date_order date ps ->
  fst (register_trim compile date info b e tag payee ps) = filter (selected compile date info b e tag payee) ps.
Proof.
  intros H. unfold register_trim. rewrite trim_filter by exact H. unfold payee_filter.
  assert (Tag : forall l, tag_filter compile info tag l = filter (fun p => tag_ok compile tag (info p)) l).
  { intros l. unfold tag_filter, tag_ok. destruct (new_tag_matcher compile tag); [reflexivity|]. symmetry. apply filter_all. reflexivity. }
  unfold selected, payee_ok. destruct payee as [|c r].
  - cbn [fst]. rewrite Tag, filter_filter. apply filter_ext. intros p. rewrite andb_true_r. reflexivity.
  - destruct (eqc c "!"%char); cbn [fst]; rewrite Tag, !filter_filter; apply filter_ext; intros p;
      destruct (compile _ _), (in_range b e (date p)); reflexivity.
Qed.
Lemma register_trim_payee compile date info b e tag payee ps : (forall c r, payee = c :: r -> eqc c "!"%char = false) ->
  snd (register_trim compile date info b e tag payee ps) = payee.
Proof.
  intros H. unfold register_trim, payee_filter. destruct payee as [|c r]; [reflexivity|]. rewrite (H c r eq_refl). reflexivity.
Qed.
Lemma trim_each_spec compile date info b e tag payee : (forall c r, payee = c :: r -> eqc c "!"%char = false) ->
  forall regs, Forall (in_date_order date) regs -> trim_each compile date info b e tag payee regs = map (filter (selected compile date info b e tag payee)) regs.
Proof.
  intros H. induction 1 as [|ps regs O _ IH]; [reflexivity|]. cbn [trim_each map].
  rewrite <- IH. rewrite <- (register_trim_spec compile date info b e tag payee ps O).
  assert (Ep := register_trim_payee compile date info b e tag payee ps H). destruct (register_trim compile date info b e tag payee ps) as [l q]. cbn in Ep |- *. subst q. reflexivity.
Qed.

(** ** lines *)
Section Lines.
Context (bt : option (Z -> Z)) (bc : bool) (com : commodity).
Lemma lines_in l t k q : line_ok bc com l -> (In (t, k, q) (lines bc l) <-> amount_on bc l t k = Some q /\ (bc = false -> k = [])).
Proof.
  intros (U & O). unfold lines. rewrite in_flat_map. split.
  - intros (c & I & J). assert (Oc : cell_ok bc com c) by (rewrite Forall_forall in O; auto).
    assert (T : c_time c = t /\ value_in_cell bc k c = Some q /\ (bc = false -> k = [])).
    { unfold cell_ok in Oc. unfold value_in_cell. destruct bc.
      - apply in_map_iff in J as ((k' & v) & E & J). injection E as <- <- <-. split; [reflexivity|]. split; [|discriminate]. destruct Oc as (_ & _ & N & _).
        clear - N J. induction (c_cats c) as [|[a w] m IH]; [destruct J|]. cbn [bget]. cbn [map fst] in N. inversion N as [|? ? N1 N2]; subst.
        destruct J as [E|J]; [injection E as -> ->; cbn [snd fst]; rewrite eqb_bytes_refl; reflexivity|]. cbn [fst snd] in *. destruct (eqb_bytes k' a) eqn:E; [|auto].
        apply eqb_bytes_iff in E. subst. exfalso. apply N1. apply in_map_iff. exists (a, v). auto.
      - destruct (c_total c) as [a|]; [|destruct J]. destruct J as [E|[]]. injection E as <- <- <-. auto. }
    destruct T as (<- & T & K). split; [|exact K]. unfold amount_on. rewrite (find_self _ _ U I). exact T.
  - intros (H & K). unfold amount_on in H. destruct (List.find (fun c => c_time c =? t) l) as [c|] eqn:E; [|discriminate].
    apply List.find_some in E as [I E]. assert (Et : c_time c = t) by lia. exists c. split; [exact I|]. unfold value_in_cell in H. destruct bc.
    + apply in_map_iff. exists (k, q). cbn. split; [congruence|]. apply bget_in, H.
    + rewrite H, (K eq_refl), Et. left. reflexivity.
Qed.
Lemma nodup_app {A} (l l' : list A) : NoDup l -> NoDup l' -> (forall x, In x l -> In x l' -> False) -> NoDup (l ++ l').
Proof.
  intros N N' H. induction N as [|x l N1 N2 IH]; [exact N'|]. cbn [app]. constructor.
  - rewrite in_app_iff. intros [I|I]; [auto|]. apply (H x); [left; reflexivity|exact I].
  - apply IH. intros y I. apply H. right. exact I.
Qed.
Lemma lines_nodup l : line_ok bc com l -> NoDup (map fst (lines bc l)).
Proof.
  intros (U & O). unfold lines. induction l as [|c l IH]; [constructor|]. cbn [flat_map]. apply up_cons in U as [U Uc]. apply Forall_cons_iff in O as [Oc O].
  rewrite map_app. apply nodup_app; [|apply IH; auto|].
  - unfold cell_ok in Oc. destruct bc.
    + rewrite map_map. cbn [fst]. destruct Oc as (_ & _ & N & _). clear - N. induction (c_cats c) as [|[k v] m IH]; [constructor|]. cbn [map fst] in *.
      inversion N as [|? ? N1 N2]; subst. constructor; [|auto]. intros I. apply in_map_iff in I as ((k' & v') & E & I). injection E as E. cbn [fst] in E. subst k'. apply N1.
      apply in_map_iff. exists (k, v'). auto.
    + destruct (c_total c); repeat constructor. intros [].
  - intros [t k] I J. assert (T : t = c_time c).
    { apply in_map_iff in I as (((t' & k') & q) & E & I). cbn in E. injection E as -> ->. destruct bc.
      - apply in_map_iff in I as (kv & E & _). congruence.
      - destruct (c_total c); [|destruct I]. destruct I as [E|[]]. congruence. }
    apply in_map_iff in J as (((t' & k') & q) & E & J). cbn in E. injection E as -> ->. apply in_flat_map in J as (d & Id & J).
    assert (t = c_time d).
    { destruct bc; [apply in_map_iff in J as (kv & E & _); congruence|]. destruct (c_total d); [|destruct J]. destruct J as [E|[]]. congruence. }
    specialize (Uc d Id). lia.
Qed.
Definition key_of (e : entry) : Z * bytes := (period_of bt (e_date e), if bc then e_cat e else []).
Definition eq_line (a b : Z * bytes) : bool := (fst a =? fst b) && eqb_bytes (snd a) (snd b).
Lemma eq_line_iff a b : eq_line a b = true <-> a = b.
Proof.
  unfold eq_line. destruct a as [t k], b as [t' k']. cbn [fst snd]. rewrite andb_true_iff, Z.eqb_eq, eqb_bytes_iff. split; [intros [-> ->]; reflexivity|intros E; injection E; auto].
Qed.
Lemma belongs_key t k e : (bc = false -> k = []) -> belongs bt bc t k e = eq_line (key_of e) (t, k).
Proof.
  intros H. unfold belongs, eq_line, key_of. cbn [fst snd]. f_equal. destruct bc.
  - destruct (eqb_bytes k (e_cat e)) eqn:E.
    + apply eqb_bytes_iff in E. subst. rewrite eqb_bytes_refl. reflexivity.
    + destruct (eqb_bytes (e_cat e) k) eqn:E'; [|reflexivity]. apply eqb_bytes_iff in E'. subst. rewrite eqb_bytes_refl in E. discriminate.
  - rewrite (H eq_refl). reflexivity.
Qed.
Lemma sum_over_lines ks es : NoDup ks -> (forall t k, In (t, k) ks -> bc = false -> k = []) -> (forall e, In e es -> In (key_of e) ks) ->
  zsum (map (fun tk => line_sum bt bc (fst tk) (snd tk) es) ks) = zsum (map (fun e => a_int (e_qty e)) es).
Proof.
  intros N Hk. induction es as [|e es IH]; intros H.
  - apply zsum_zero. intros x _. reflexivity.
  - cbn [map]. rewrite zsum_cons, <- IH by (intros; apply H; right; auto).
    transitivity (zsum (map (fun tk => (if eq_line (key_of e) tk then a_int (e_qty e) else 0) + line_sum bt bc (fst tk) (snd tk) es) ks)).
    + f_equal. apply map_ext_in. intros [t k] I. cbn [fst snd]. change (e :: es) with ([e] ++ es). rewrite sum_app, line_sum1. f_equal.
      rewrite (belongs_key t k e) by (apply (Hk t k I)). reflexivity.
    + rewrite zsum_add. f_equal. specialize (H e (or_introl eq_refl)). clear - N H. induction N as [|a l N1 N2 IH]; [destruct H|]. cbn [map]. rewrite zsum_cons.
      destruct (eq_line (key_of e) a) eqn:E.
      * apply eq_line_iff in E. subst a. rewrite (zsum_zero _ l); [lia|]. intros x I. destruct (eq_line (key_of e) x) eqn:E; [|reflexivity]. apply eq_line_iff in E. subst. tauto.
      * destruct H as [->|H]; [rewrite (proj2 (eq_line_iff _ _) eq_refl) in E; discriminate|]. rewrite IH by exact H. lia.
Qed.
End Lines.

(** ** top *)
Section Top.
Context (conv : conversion) (bt : option (Z -> Z)) (bc : bool) (com : commodity).
Hypothesis Hagg : bt <> None \/ bc = true.
Definition val (ts : tts) (t : Z) (k : bytes) : Z := match amount_on bc (cells ts) t k with Some x => a_int x | None => 0 end.
Lemma merge_rest_val m : forall rest o, timeline_ok bt bc com o -> (forall a, In a rest -> exists ts, aget a m = Some ts /\ timeline_ok bt bc com ts) ->
  exists o', merge_rest conv m o rest = Ok o' /\ timeline_ok bt bc com o' /\ forall t k, val o' t k = val o t k + zsum (map (amount_of bc m t k) rest).
Proof.
  induction rest as [|a rest IH]; intros o Oo H; cbn [merge_rest map].
  - exists o. split; [reflexivity|]. split; [exact Oo|]. intros. cbn. lia.
  - destruct (H a (or_introl eq_refl)) as (ts & E & Ot). rewrite E. destruct (merge_spec conv bt bc com false o ts Hagg Oo Ot) as (o1 & E1 & O1 & V1). rewrite E1. cbn [bind].
    destruct (IH o1 O1 (fun b I => H b (or_intror I))) as (o' & E' & O' & V'). exists o'. split; [exact E'|]. split; [exact O'|]. intros t k. rewrite V', zsum_cons.
    unfold val at 1, val at 1. unfold amount_of at 2. rewrite E, V1. unfold comb. destruct (amount_on bc (cells o) t k), (amount_on bc (cells ts) t k); cbn; lia.
Qed.
Lemma restrict_get m : forall accs a, In a accs -> (forall b, In b accs -> exists ts, aget b m = Some ts) -> forall l, aget a (restrict m accs ++ l) = aget a m.
Proof.
  induction accs as [|b accs IH]; intros a I H l; [destruct I|]. cbn [restrict]. destruct (H b (or_introl eq_refl)) as (ts & E). rewrite E. cbn [app aget].
  destruct (eq_key a b) eqn:Ek; [apply L_Propagate.eq_key_iff in Ek; subst; congruence|]. destruct I as [->|I].
  - rewrite (proj2 (L_Propagate.eq_key_iff _ _) eq_refl) in Ek. discriminate.
  - apply IH; auto. intros c Ic. apply H. right. exact Ic.
Qed.
Lemma restrict_none m : forall accs, ~ In None accs -> forall l, aget None (restrict m accs ++ l) = aget None l.
Proof.
  induction accs as [|b accs IH]; intros N l; [reflexivity|]. cbn [restrict]. destruct (aget b m); [|apply IH; intros I; apply N; right; exact I].
  cbn [app aget]. destruct b; [|exfalso; apply N; left; reflexivity]. cbn [eq_key]. apply IH. intros I; apply N; right; exact I.
Qed.
Lemma top_vals m order n : NoDup order -> ~ In None order -> (forall a, In a order -> exists ts, aget a m = Some ts /\ timeline_ok bt bc com ts) ->
  exists m', top conv (Z.of_nat n) m order = Ok (m', shown_cols n order) /\
    (forall a, In a (shown_cols n order) -> a <> None -> aget a m' = aget a m) /\
    (In None (shown_cols n order) -> forall t k, amount_of bc m' t k None = zsum (map (amount_of bc m t k) (skipn n order))).
Proof.
  intros N Nn H. unfold top, shown_cols. rewrite Nat2Z.id. destruct (Nat.leb_spec (List.length order) n) as [E|E].
  - replace (Z.of_nat (List.length order) <=? Z.of_nat n) with true by lia. exists m. split; [reflexivity|]. split; [auto|]. intros I. tauto.
  - replace (Z.of_nat (List.length order) <=? Z.of_nat n) with false by lia. replace (Z.of_nat n <? 0) with false by lia.
    assert (El := firstn_skipn n order). assert (Lk : List.length (firstn n order) = n) by (rewrite firstn_length; lia).
    assert (Lr : List.length (skipn n order) = (List.length order - n)%nat) by apply skipn_length.
    assert (Hk : forall a, In a (firstn n order) -> In a order) by (intros a I; rewrite <- El; apply in_or_app; left; exact I).
    assert (Hr : forall a, In a (skipn n order) -> In a order) by (intros a I; rewrite <- El; apply in_or_app; right; exact I).
    destruct (skipn n order) as [|a [|b r]] eqn:Er.
    + cbn in Lr. lia.
    + cbn in Lr. replace (List.length order =? S n)%nat with true by (symmetry; apply Nat.eqb_eq; lia). eexists. split; [reflexivity|]. split.
      * intros x I _. rewrite <- (app_nil_r (restrict m (firstn n order))). apply restrict_get; [exact I|]. intros y J. destruct (H y (Hk y J)) as (ts & E1 & _). eauto.
      * intros I. exfalso. auto.
    + cbn in Lr. replace (List.length order =? S n)%nat with false by (symmetry; apply Nat.eqb_neq; lia).
      destruct (H a (Hr a (or_introl eq_refl))) as (ts & Ea & Oa). rewrite Ea.
      destruct (merge_rest_val m (b :: r) ts Oa) as (o & Eo & Oo & Vo); [intros x I; apply H, Hr; right; exact I|]. rewrite Eo. cbn [bind].
      eexists. split; [reflexivity|]. split.
      * intros x I Nx. apply in_app_or in I as [I|[<-|[]]]; [|congruence]. apply restrict_get; [exact I|]. intros y J. destruct (H y (Hk y J)) as (ts' & E1 & _). eauto.
      * intros _ t k. unfold amount_of at 1. rewrite restrict_none by (intros I; apply Nn, Hk, I). cbn [aget eq_key].
        specialize (Vo t k). unfold val in Vo. rewrite Vo. cbn [map]. rewrite (zsum_cons (amount_of bc m t k a)). f_equal. unfold amount_of. rewrite Ea. reflexivity.
Qed.
Lemma top_total m order n : NoDup order -> ~ In None order -> (forall a, In a order -> exists ts, aget a m = Some ts /\ timeline_ok bt bc com ts) ->
  List.length order <> S n ->
  exists m', top conv (Z.of_nat n) m order = Ok (m', shown_cols n order) /\
    forall t k, zsum (map (amount_of bc m' t k) (shown_cols n order)) = zsum (map (amount_of bc m t k) order).
Proof.
  intros N Nn H Hl. destruct (top_vals m order n N Nn H) as (m' & E & K & O). exists m'. split; [exact E|]. intros t k.
  assert (Same : forall l, incl l (shown_cols n order) -> ~ In None l -> map (amount_of bc m' t k) l = map (amount_of bc m t k) l).
  { intros l I Ni. apply map_ext_in. intros a Ia. unfold amount_of. rewrite K; [reflexivity|auto|congruence]. }
  revert Same O. unfold shown_cols. destruct (Nat.leb_spec (List.length order) n) as [L|L].
  - intros Same _. rewrite Same; [reflexivity|apply incl_refl|exact Nn].
  - replace (List.length order =? S n)%nat with false by (symmetry; apply Nat.eqb_neq; exact Hl). intros Same O.
    rewrite map_app, zsum_app. cbn [map]. rewrite Same; [|apply incl_appl, incl_refl|intros I; apply Nn; rewrite <- (firstn_skipn n order); apply in_or_app; left; exact I].
    rewrite zsum_cons, O by (apply in_or_app; right; left; reflexivity). cbn [zsum fold_right]. rewrite Z.add_0_r, <- zsum_app, <- map_app, firstn_skipn. reflexivity.
Qed.
End Top.

(** ** categories by tags *)
Lemma tags_with_get xt pt k : NoDup (map fst xt) -> NoDup (map fst pt) ->
  tag_get k (tags_with xt pt) = match tag_get k pt with Some v => Some v | None => tag_get k xt end.
Proof. intros N N'. unfold tags_with. rewrite set_all_get by exact N'. destruct (tag_get k pt); [reflexivity|]. rewrite set_all_get by exact N. destruct (tag_get k xt); reflexivity. Qed.
Lemma split_app sep a b : split_on sep (a ++ sep :: b) = split_on sep a ++ split_on sep b.
Proof.
  induction a as [|c a IH]; cbn [app split_on].
  - rewrite eqc_same. reflexivity.
  - rewrite IH. destruct (eqc c sep); [reflexivity|]. assert (N := split_on_nonnil sep a). destruct (split_on sep a); [congruence|reflexivity].
Qed.
Lemma split_join_flat sep ps : ps <> [] -> split_on sep (join [sep] ps) = flat_map (split_on sep) ps.
Proof.
  induction ps as [|p ps IH]; [congruence|]. intros _. destruct ps as [|q ps]; [cbn [join flat_map]; rewrite app_nil_r; reflexivity|].
  change (join [sep] (p :: q :: ps)) with (p ++ sep :: join [sep] (q :: ps)). rewrite split_app, IH by discriminate. reflexivity.
Qed.
(** texts without the separator, or with just one at the end *)
Definition piece (sep : ascii) (p : bytes) : Prop := exists x, x <> [] /\ ~ In sep x /\ (p = x \/ p = x ++ [sep]).
Lemma split_none sep x : ~ In sep x -> split_on sep x = [x].
Proof.
  induction x as [|c x IH]; [reflexivity|]. intros N. cbn [split_on]. destruct (eqc c sep) eqn:E.
  - apply Ascii.eqb_eq in E. subst. exfalso. apply N. left. reflexivity.
  - rewrite IH by (intros I; apply N; right; exact I). reflexivity.
Qed.
Lemma pieces_inj sep : forall l l', Forall (piece sep) l -> Forall (piece sep) l' -> flat_map (split_on sep) l = flat_map (split_on sep) l' -> l = l'.
Proof.
  assert (S1 : forall p, piece sep p -> exists x, x <> [] /\ ((p = x /\ split_on sep p = [x]) \/ (p = x ++ [sep] /\ split_on sep p = [x; []]))).
  { intros p (x & N & I & [->| ->]); exists x; (split; [exact N|]).
    - left. split; [reflexivity|apply split_none, I].
    - right. split; [reflexivity|]. change (x ++ [sep]) with (x ++ sep :: []). rewrite split_app, split_none by exact I. reflexivity. }
  assert (Head : forall l, Forall (piece sep) l -> forall t, flat_map (split_on sep) l = [] :: t -> False).
  { intros [|p l] F t E; [discriminate|]. apply Forall_cons_iff in F as [F _]. destruct (S1 p F) as (x & N & [[_ K]|[_ K]]); cbn [flat_map] in E; rewrite K in E; cbn in E; congruence. }
  induction l as [|p l IH]; intros l' F F' E.
  - destruct l' as [|p' l']; [reflexivity|]. apply Forall_cons_iff in F' as [F' _]. destruct (S1 p' F') as (x & N & [[_ K]|[_ K]]); cbn [flat_map] in E; rewrite K in E; discriminate.
  - apply Forall_cons_iff in F as [F1 F]. destruct (S1 p F1) as (x & N & K). destruct l' as [|p' l'].
    + exfalso. destruct K as [[_ K]|[_ K]]; cbn [flat_map] in E; rewrite K in E; discriminate.
    + apply Forall_cons_iff in F' as [F1' F']. destruct (S1 p' F1') as (x' & N' & K'). cbn [flat_map] in E.
      destruct K as [[Ep K]|[Ep K]], K' as [[Ep' K']|[Ep' K']]; rewrite K, K' in E; cbn [app] in E; injection E as Ex Er; subst x'.
      * f_equal; [congruence|]. apply IH; auto.
      * exfalso. apply (Head _ F _ Er).
      * exfalso. symmetry in Er. apply (Head _ F' _ Er).
      * f_equal; [congruence|]. apply IH; auto.
Qed.
Lemma acc_no c k : is_acc c = false -> forallb is_acc k = true -> ~ In c k.
Proof. intros H F I. rewrite forallb_forall in F. specialize (F c I). congruence. Qed.
Lemma kv_piece kv : key_ok (fst kv) -> value_ok (snd kv) -> piece ","%char (key_and_value kv).
Proof.
  destruct kv as [k v]. cbn [fst snd]. intros [N K] V. unfold key_and_value. cbn [fst snd].
  assert (Nk : ~ In ","%char k) by (apply acc_no; [reflexivity|exact K]).
  destruct v as [|v0 v']; [exists k; auto|]. set (v := v0 :: v') in *. destruct V as [V|(a & c & E & Na & Ca & Sp & _)]; [discriminate|]. rewrite E.
  destruct (Ascii.ascii_dec c ","%char) as [->|D].
  - exists (k ++ B ":" ++ a). split; [destruct k; discriminate|]. split.
    + rewrite !in_app_iff. intros [I|[[I|[]]|I]]; [auto|discriminate|auto].
    + right. rewrite <- !app_assoc. reflexivity.
  - exists (k ++ B ":" ++ a ++ [c]). split; [destruct k; discriminate|]. split; [|left; reflexivity].
    rewrite !in_app_iff. intros [I|[[I|[]]|[I|[I|[]]]]]; [auto|discriminate|auto|congruence].
Qed.
Lemma kv_inj a b : key_ok (fst a) -> key_ok (fst b) -> key_and_value a = key_and_value b -> a = b.
Proof.
  destruct a as [k v], b as [k' v']. unfold key_and_value. cbn [fst snd]. intros [_ K] [_ K'] E.
  assert (Nk := acc_no ":"%char k eq_refl K). assert (Nk' := acc_no ":"%char k' eq_refl K'). clear K K'.
  assert (G : forall k k' r r', ~ In ":"%char k -> ~ In ":"%char k' -> k ++ ":"%char :: r = k' ++ ":"%char :: r' -> k = k' /\ r = r').
  { clear. induction k as [|c k IH]; intros [|c' k'] r r' N N' E; cbn in E.
    - injection E as ->. auto.
    - injection E as <- E. exfalso. apply N'. left. reflexivity.
    - injection E as -> E. exfalso. apply N. left. reflexivity.
    - injection E as <- E. apply IH in E as [-> ->]; [auto| |]; intros I; [apply N|apply N']; right; exact I. }
  destruct v as [|x v], v' as [|x' v'].
  - congruence.
  - exfalso. apply Nk. rewrite E. apply in_or_app. right. left. reflexivity.
  - exfalso. apply Nk'. rewrite <- E. apply in_or_app. right. left. reflexivity.
  - apply G in E as [-> E]; auto. congruence.
Qed.
Lemma category_inj t t' : tags_ok t -> tags_ok t' -> t <> [] -> t' <> [] ->
  join (B ",") (keys_and_values t) = join (B ",") (keys_and_values t') -> forall k v, In (k, v) t -> In (k, v) t'.
Proof.
  intros [N F] [N' F'] Z Z' E k v I. assert (P := sort_strings_perm (map key_and_value t)). assert (P' := sort_strings_perm (map key_and_value t')).
  assert (Q : forall u, Forall (fun kv => key_ok (fst kv) /\ value_ok (snd kv)) u -> Forall (piece ","%char) (keys_and_values u)).
  { intros u Fu. unfold keys_and_values. rewrite Forall_forall in *. intros x Ix. apply (Permutation_in _ (Permutation_sym (sort_strings_perm _))) in Ix.
    apply in_map_iff in Ix as (kv & <- & Ik). destruct (Fu kv Ik). apply kv_piece; auto. }
  assert (Nz : forall u, u <> [] -> keys_and_values u <> []).
  { intros u Zu E0. apply Zu. assert (Pu := sort_strings_perm (map key_and_value u)). unfold keys_and_values in E0. rewrite E0 in Pu. apply Permutation_sym, Permutation_nil in Pu.
    destruct u; [reflexivity|discriminate]. }
  assert (K : keys_and_values t = keys_and_values t').
  { apply (pieces_inj ","%char); [apply Q, F|apply Q, F'|]. rewrite <- !split_join_flat by (apply Nz; auto). change [","%char] with (B ","). rewrite E. reflexivity. }
  unfold keys_and_values in K. rewrite K in P. assert (J : In (key_and_value (k, v)) (map key_and_value t')).
  { apply (Permutation_in _ (Permutation_sym P')), (Permutation_in _ P), in_map, I. }
  apply in_map_iff in J as (kv & E' & J). rewrite Forall_forall in F, F'. apply kv_inj in E'; [subst; exact J|apply F', J|apply (F _ I)].
Qed.
Lemma tags_with_ok xt pt : tags_ok xt -> tags_ok pt -> tags_ok (tags_with xt pt).
Proof. intros [_ F] [_ F']. unfold tags_with. apply set_all_ok; [exact F'|]. apply set_all_ok; [exact F|]. split; constructor. Qed.
Lemma category_head t : tags_ok t -> t <> [] -> exists c r, join (B ",") (keys_and_values t) = c :: r /\ is_acc c = true.
Proof.
  intros [_ F] Z. destruct (keys_and_values t) as [|x l] eqn:E.
  - exfalso. apply Z. assert (P := sort_strings_perm (map key_and_value t)). unfold keys_and_values in E. rewrite E in P. apply Permutation_sym, Permutation_nil in P. destruct t; [reflexivity|discriminate].
  - assert (I : In x (map key_and_value t)). { apply (Permutation_in _ (Permutation_sym (sort_strings_perm _))). fold (keys_and_values t). rewrite E. left. reflexivity. }
    apply in_map_iff in I as ((k & v) & <- & I). rewrite Forall_forall in F. destruct (F _ I) as [[Nk Kk] _]. cbn [fst] in *. destruct k as [|c k]; [congruence|]. cbn in Kk. apply andb_true_iff in Kk as [Kc _].
    exists c. unfold key_and_value. cbn [fst snd]. destruct v, l; eexists; (split; [reflexivity|exact Kc]).
Qed.
Lemma category_spec xt pt xt' pt' : tags_ok xt -> tags_ok pt -> tags_ok xt' -> tags_ok pt' ->
  (tag_category xt pt = tag_category xt' pt' <-> forall k, tag_get k (tags_with xt pt) = tag_get k (tags_with xt' pt')).
Proof.
  intros H1 H2 H3 H4. assert (O := tags_with_ok _ _ H1 H2). assert (O' := tags_with_ok _ _ H3 H4). unfold tag_category.
  set (t := tags_with xt pt) in *. set (t' := tags_with xt' pt') in *. clearbody t t'. clear H1 H2 H3 H4.
  assert (Cmp : forall u u', tags_ok u -> tags_ok u' -> (forall k v, In (k, v) u <-> In (k, v) u') -> forall k, tag_get k u = tag_get k u').
  { intros u u' [Nu _] [Nu' _] H k. destruct (tag_get k u) as [v|] eqn:E.
    - symmetry. apply tag_get_in; [exact Nu'|]. apply H, tag_get_in, E. exact Nu.
    - destruct (tag_get k u') as [v|] eqn:E'; [|reflexivity]. apply tag_get_in, H, tag_get_in in E'; auto. congruence. }
  assert (Cmp' : forall u u', tags_ok u -> tags_ok u' -> (forall k, tag_get k u = tag_get k u') -> forall kv, In kv u -> In kv u').
  { intros u u' [Nu _] [Nu' _] H [k v] I. apply tag_get_in; [exact Nu'|]. rewrite <- H. apply tag_get_in; auto. }
  split.
  - intros E. destruct t as [|a t0], t' as [|a' t0']; [reflexivity| | |].
    + exfalso. destruct (category_head _ O') as (c & r & E1 & A); [discriminate|]. rewrite E1 in E. injection E as <- _. discriminate.
    + exfalso. destruct (category_head _ O) as (c & r & E1 & A); [discriminate|]. rewrite E1 in E. injection E as -> _. discriminate.
    + apply Cmp; auto. intros k v. split; apply category_inj; auto; discriminate.
  - intros H. assert (P : Permutation t t').
    { apply NoDup_Permutation; [eapply NoDup_map_inv; apply O|eapply NoDup_map_inv; apply O'|]. intros kv. split; apply Cmp'; auto. }
    destruct t as [|a t0], t' as [|a' t0']; [reflexivity| | |].
    + apply Permutation_nil in P. discriminate.
    + apply Permutation_sym, Permutation_nil in P. discriminate.
    + unfold keys_and_values. rewrite (sort_strings_unique _ _ (Permutation_map key_and_value P)). reflexivity.
Qed.
