(** Lemmas: the aggregated register, from postings to rows. *)
From Coq Require Import Sorted Permutation.
From Verif Require Import Base M_Amount M_Parser M_Names M_Ledger M_Report S_Amount S_Report S_Names S_Books L_Dec L_Sort L_Names L_Amount L_Registers L_Resolve L_Resolve2 L_Load L_Tree L_Tree2 L_Balance L_Totals L_Propagate.

Section Agg.
Context (conv : conversion) (bt : option (Z -> Z)) (bc : bool) (com : commodity).
Hypothesis Hagg : bt <> None \/ bc = true.
Hypothesis Hred : reducer_ok bt.
Notation sums := (sums bt bc com).

Lemma sums_nil ts V K : sums ts V K -> (cells ts = [] <-> K = []).
Proof.
  intros S. split; intros E.
  - destruct K as [|e K]; [reflexivity|exfalso]. destruct S as (_ & _ & L).
    specialize (L (period_of bt (e_date e)) (e_cat e)). rewrite E in L. cbn in L. unfold belongs in L. rewrite Z.eqb_refl in L. cbn [andb] in L.
    destruct bc; [rewrite eqb_bytes_refl in L|]; cbn in L; discriminate.
  - destruct (cells ts) as [|c r] eqn:Ec; [reflexivity|exfalso]. destruct (cell_slot bt bc com ts V K c S) as (e & I & _); [rewrite Ec; left; reflexivity|].
    rewrite E in I. destruct I.
Qed.
Lemma account_totals_spec (sel : bytes -> list entry) : forall accs m, NoDup accs -> NoDup (map fst m) ->
  (forall x, In x accs -> entries_in_order (sel x) /\ entries_in com (sel x)) ->
  exists m', account_totals conv bt bc sel accs m = Ok m' /\ NoDup (map fst m') /\
    (forall x, In x accs -> exists ts, aget (Some x) m' = Some ts /\ sums ts (sel x) (sel x)) /\
    (forall b, (forall x, In x accs -> b <> Some x) -> aget b m' = aget b m).
Proof.
  induction accs as [|a accs IH]; intros m N Nm H; cbn [account_totals].
  - exists m. split; [reflexivity|]. split; [exact Nm|]. split; [intros ? []|auto].
  - inversion N as [|? ? N1 N2]; subst. destruct (H a (or_introl eq_refl)) as [Ho Hi].
    destruct (add_all_rep conv bt bc com Hred (sel a) (mkTts bt bc []) [] (empty_rep bt bc com) Ho Hi) as (ts & E & S). cbn [app] in S.
    rewrite E. cbn [bind]. destruct (IH (aset (Some a) ts m) N2) as (m' & E' & Nm' & G & O).
    { apply aset_nodup, Nm. }
    { intros x I. apply H. right. exact I. }
    exists m'. split; [exact E'|]. split; [exact Nm'|]. split.
    + intros x [<-|I]; [|auto]. exists ts. split; [|exact S]. rewrite O by (intros x I [= ->]; tauto). rewrite aget_set.
      rewrite (proj2 (eq_key_iff _ _) eq_refl). reflexivity.
    + intros b Hb. rewrite O by (intros x I; apply Hb; right; exact I). rewrite aget_set. destruct (eq_key b (Some a)) eqn:Ek; [|reflexivity].
      apply eq_key_iff in Ek. exfalso. apply (Hb a (or_introl eq_refl)), Ek.
Qed.
Lemma sanitize_get m a : NoDup (map fst m) -> aget a (sanitize m) = match aget a m with Some ts => match cells ts with [] => None | _ => Some ts end | None => None end.
Proof.
  induction m as [|[k v] m IH]; intros N; cbn [sanitize filter snd aget]; [reflexivity|]. cbn [map fst] in N. inversion N as [|? ? N1 N2]; subst.
  fold (sanitize m). destruct (eq_key a k) eqn:E.
  - apply eq_key_iff in E. subst k. destruct (cells v) eqn:Ec; cbn [aget].
    + rewrite IH by exact N2. assert (aget a m = None) as ->; [|reflexivity]. clear - N1. induction m as [|[k w] m IH]; [reflexivity|]. cbn [aget].
      destruct (eq_key a k) eqn:E; [apply eq_key_iff in E; subst; exfalso; apply N1; left; reflexivity|]. apply IH. intros I. apply N1. right. exact I.
    + rewrite (proj2 (eq_key_iff a a) eq_refl). reflexivity.
  - destruct (cells v); cbn [aget]; [|rewrite E]; apply IH; exact N2.
Qed.
Lemma filter_nodup {A C} (f : A -> C) P l : NoDup (map f l) -> NoDup (map f (filter P l)).
Proof.
  induction l as [|x l IH]; intros N; cbn [filter]; [constructor|]. cbn [map] in N. inversion N as [|? ? N1 N2]; subst. destruct (P x); [|auto].
  cbn [map]. constructor; [|auto]. intros I. apply N1. apply in_map_iff in I as (y & <- & I). apply filter_In in I as [I _]. apply in_map, I.
Qed.

(** what the totals of an account count, and the postings whose lines it shows *)
Definition counted (recurse : bool) (sel : bytes -> list entry) (under : bytes -> list bytes) (x : bytes) : list entry :=
  if recurse then flat_map sel (under x) else sel x.
Lemma aggregated_spec all T f a recurse (sel : bytes -> list entry) :
  tree_of all T -> In a all -> (bound all < f)%nat -> (forall x, In x (with_children f (t_children T) a) -> entries_in_order (sel x) /\ entries_in com (sel x)) ->
  let under := with_children f (t_children T) in
  exists m, aggregated f conv T a bt bc recurse sel = Ok m /\ NoDup (map fst m) /\ aget None m = None /\
    (forall x, In x (under a) -> flat_map sel (under x) <> [] ->
       exists ts, aget (Some x) m = Some ts /\ sums ts (counted recurse sel under x) (flat_map sel (under x))) /\
    (forall x ts, aget (Some x) m = Some ts -> In x (under a) /\ flat_map sel (under x) <> []).
Proof.
  intros HT Ha Hf Hs under. unfold aggregated. set (K := with_children f (t_children T) a) in *.
  assert (NK : NoDup K) by apply (reach_nodup all T HT).
  destruct (account_totals_spec sel K [] NK (NoDup_nil _) Hs) as (m1 & E1 & N1 & G1 & O1). rewrite E1. cbn [bind].
  set (R := fun (s : tts) (l : list bytes) => exists h r, l = h :: r /\ sums s (if recurse then flat_map sel l else sel h) (flat_map sel l)).
  assert (HR : forall s s' l l', l <> [] -> R s l -> R s' l' -> exists s2, merge_totals conv (negb recurse) s s' = Ok s2 /\ R s2 (l ++ l')).
  { intros s s' l l' _ (h & r & -> & S1) (h' & r' & -> & S2). unfold R. destruct recurse; cbn [negb].
    - destruct (merge_rep conv bt bc com s s' _ _ _ _ Hagg S1 S2) as (s2 & E2 & S3). exists s2. split; [exact E2|]. exists h, (r ++ h' :: r').
      split; [reflexivity|]. rewrite flat_map_app. exact S3.
    - destruct (merge_keys_rep conv bt bc com s s' _ _ _ _ Hagg S1 S2) as (s2 & E2 & S3). exists s2. split; [exact E2|]. exists h, (r ++ h' :: r').
      split; [reflexivity|]. rewrite flat_map_app. exact S3. }
  assert (EK : K = with_children (S (bound all)) (t_children T) a) by (apply (reach_stable all T HT); auto; lia).
  destruct (push_sub all T conv recurse R HT HR f a m1 K (fun x => [x]) Ha ltac:(lia)) as (m2 & v2 & E2 & (N2 & K0 & K2) & _ & V2 & _ & O2).
  { split; [exact N1|]. split; [rewrite O1 by discriminate; reflexivity|]. intros x. destruct (mem x K) eqn:Mx.
    - apply mem_in in Mx. destruct (G1 x Mx) as (ts & Ets & Sts). exists ts. split; [exact Ets|]. exists x, []. split; [reflexivity|].
      cbn [flat_map]. rewrite app_nil_r. destruct recurse; exact Sts.
    - apply mem_out in Mx. rewrite O1 by (intros y I [= ->]; tauto). reflexivity. }
  { discriminate. }
  { rewrite <- EK. intros x I. exact I. }
  rewrite E2. cbn [bind]. exists (sanitize m2). split; [reflexivity|]. split; [apply filter_nodup, N2|]. split; [rewrite sanitize_get, K0 by exact N2; reflexivity|].
  assert (Sub : forall x, In x K -> subl all T (fun x => [x]) x = under x).
  { intros x I. unfold subl. rewrite <- (reach_stable all T HT f (S (bound all)) x) by (auto; try lia; apply (reach_in all T HT f a); auto).
    fold under. unfold under. clear. induction (with_children f (t_children T) x) as [|y l IH]; cbn; [reflexivity|]. f_equal. exact IH. }
  assert (Get : forall x, In x K -> exists s, aget (Some x) m2 = Some s /\ sums s (counted recurse sel under x) (flat_map sel (under x))).
  { intros x I. specialize (K2 x). rewrite (proj2 (mem_in x K) I) in K2. destruct K2 as (s & Es & h & r & El & S).
    exists s. split; [exact Es|]. rewrite V2 in El, S by (rewrite <- EK; exact I). rewrite Sub in El, S by exact I.
    assert (h = x).
    { unfold under in El. destruct f as [|f']; [lia|]. cbn [with_children] in El. congruence. }
    subst h. unfold counted. destruct recurse; exact S. }
  split.
  - intros x I Ne. destruct (Get x I) as (s & Es & S). exists s. split; [|exact S]. rewrite sanitize_get, Es by exact N2.
    destruct (cells s) eqn:Ec; [|reflexivity]. apply (sums_nil s _ _ S) in Ec. tauto.
  - intros x ts. rewrite sanitize_get by exact N2. destruct (aget (Some x) m2) as [s|] eqn:Es; [|discriminate]. intros Ec.
    assert (I : In x K).
    { specialize (K2 x). destruct (mem x K) eqn:Mx; [apply mem_in, Mx|]. congruence. }
    split; [exact I|]. destruct (Get x I) as (s' & Es' & S). rewrite Es in Es'. injection Es' as <-. intros En. apply (sums_nil s _ _ S) in En. rewrite En in Ec. discriminate.
Qed.

(** ** columns *)
Definition cols (m : atotals) (order : list (option bytes)) (V K : option bytes -> list entry) : Prop :=
  NoDup (map fst m) /\ (forall k, In k (map fst m) <-> In k order) /\ (forall k ts, In (k, ts) m -> sums ts (V k) (K k)).
Lemma aget_in m k ts : aget k m = Some ts -> In (k, ts) m.
Proof.
  induction m as [|[k' v] m IH]; cbn [aget]; [discriminate|]. destruct (eq_key k k') eqn:E; [|right; auto].
  intros [= <-]. apply eq_key_iff in E. subst. left. reflexivity.
Qed.
Lemma in_aget m k ts : NoDup (map fst m) -> In (k, ts) m -> aget k m = Some ts.
Proof.
  induction m as [|[k' v] m IH]; intros N I; [destruct I|]. cbn [map fst] in N. inversion N as [|? ? N1 N2]; subst. cbn [aget]. destruct I as [[= <- <-]|I].
  - rewrite (proj2 (eq_key_iff _ _) eq_refl). reflexivity.
  - destruct (eq_key k k') eqn:E; [|auto]. apply eq_key_iff in E. subst. exfalso. apply N1. apply in_map_iff. exists (k', ts). auto.
Qed.
Lemma cols_get m order V K k : cols m order V K -> In k order -> exists ts, aget k m = Some ts /\ sums ts (V k) (K k).
Proof.
  intros (N & I & S) Ik. apply I in Ik. apply in_map_iff in Ik as ([k' ts] & E & J). cbn in E. subst k'. exists ts. split; [apply in_aget; auto|auto].
Qed.
Lemma merge_rest_spec m (V K : option bytes -> list entry) : forall rest o V0 K0, (forall k, In k rest -> exists ts, aget k m = Some ts /\ sums ts (V k) (K k)) ->
  sums o V0 K0 -> exists o', merge_rest conv m o rest = Ok o' /\ sums o' (V0 ++ flat_map V rest) (K0 ++ flat_map K rest).
Proof.
  induction rest as [|k rest IH]; intros o V0 K0 H S; cbn [merge_rest flat_map].
  - exists o. rewrite !app_nil_r. auto.
  - destruct (H k (or_introl eq_refl)) as (ts & E & S'). rewrite E.
    destruct (merge_rep conv bt bc com o ts _ _ _ _ Hagg S S') as (o1 & E1 & S1). rewrite E1. cbn [bind].
    destruct (IH o1 _ _ (fun k' I => H k' (or_intror I)) S1) as (o2 & E2 & S2). exists o2. split; [exact E2|]. rewrite <- !app_assoc in S2. exact S2.
Qed.
Lemma restrict_spec m : forall accs, NoDup accs -> NoDup (map fst m) -> (forall k, In k accs -> In k (map fst m)) ->
  map fst (restrict m accs) = accs /\ forall k ts, In (k, ts) (restrict m accs) -> In (k, ts) m.
Proof.
  induction accs as [|a accs IH]; intros N Nm H; cbn [restrict]; [split; [reflexivity|intros ? ? []]|].
  inversion N as [|? ? N1 N2]; subst. destruct (IH N2 Nm (fun k I => H k (or_intror I))) as [E J].
  destruct (aget a m) as [ts|] eqn:Ea.
  - cbn [map fst]. split; [f_equal; exact E|]. intros k t [[= <- <-]|I]; [apply aget_in, Ea|auto].
  - exfalso. specialize (H a (or_introl eq_refl)). apply in_map_iff in H as ([k v] & Ek & I). cbn in Ek. subst k.
    rewrite (in_aget m a v Nm I) in Ea. discriminate.
Qed.
Lemma top_spec m order V K n : cols m order V K -> NoDup order -> ~ In None order ->
  exists m', top conv (Z.of_nat n) m order = Ok (m', shown_cols n order) /\
    cols m' (shown_cols n order) (col_entries n order V) (col_entries n order K).
Proof.
  intros C No Nn. assert (C' := C). destruct C as (N & I & S). unfold top, shown_cols.
  destruct (Nat.leb_spec (List.length order) n) as [E|E].
  - replace (Z.of_nat (List.length order) <=? Z.of_nat n) with true by lia. exists m. split; [reflexivity|]. split; [exact N|]. split; [exact I|].
    intros k ts J. assert (Ik : In k order) by (apply I, in_map_iff; exists (k, ts); auto). destruct k; [apply S, J|tauto].
  - replace (Z.of_nat (List.length order) <=? Z.of_nat n) with false by lia. replace (Z.of_nat n <? 0) with false by lia. rewrite Nat2Z.id.
    assert (Ls : List.length (skipn n order) = (List.length order - n)%nat) by apply skipn_length.
    assert (Eo := firstn_skipn n order). set (kept := firstn n order) in *. set (rest := skipn n order) in *.
    assert (Nk : NoDup kept /\ NoDup rest).
    { rewrite <- Eo in No. apply NoDup_app_iff in No. tauto. }
    destruct (restrict_spec m kept (proj1 Nk) N) as [E1 J1]; [intros k J; apply I; rewrite <- Eo; apply in_app_iff; auto|].
    assert (Nkept : ~ In None kept) by (intros J; apply Nn; rewrite <- Eo; apply in_app_iff; auto).
    destruct (Nat.eqb_spec (List.length order) (Datatypes.S n)) as [En|En].
    { destruct rest as [|a [|b r]] eqn:Er; [cbn in Ls; lia| |cbn in Ls; lia]. exists (restrict m kept). split; [reflexivity|].
      split; [rewrite E1; apply Nk|]. split; [intros k; rewrite E1; tauto|]. intros k t J.
      assert (Ik : In k kept) by (rewrite <- E1; apply in_map_iff; exists (k, t); auto). destruct k; [|tauto]. apply S, J1, J. }
    destruct rest as [|a [|b r]] eqn:Er; [cbn in Ls; lia|cbn in Ls; lia|]. rewrite <- Er in *.
    assert (Irest : forall k, In k rest -> In k order) by (intros k J; rewrite <- Eo; apply in_app_iff; auto).
    destruct (cols_get _ _ _ _ a C') as (ts & Ea & Sa); [apply Irest; rewrite Er; left; reflexivity|]. rewrite Ea.
    destruct (merge_rest_spec m V K (b :: r) ts (V a) (K a)) as (o & Eoo & So).
    { intros k J. apply (cols_get _ _ _ _ k C'). apply Irest. rewrite Er. right. exact J. }
    { exact Sa. }
    rewrite Eoo. cbn [bind]. eexists. split; [reflexivity|]. 
    split; [|split].
    + rewrite map_app, E1. cbn [map fst]. apply NoDup_app_intro; [apply Nk|constructor; [intros []|constructor]|]. intros x J [<-|[]]. tauto.
    + intros k. rewrite map_app, E1. tauto.
    + intros k t J. apply in_app_iff in J as [J|[[= <- <-]|[]]].
      * assert (Ik : In k kept) by (rewrite <- E1; apply in_map_iff; exists (k, t); auto). destruct k; [|tauto]. apply S, J1, J.
      * unfold col_entries. fold rest. rewrite Er. exact So.
Qed.
Lemma sums_keys ts V K K' : sums ts V K -> (forall t k, has_line bt bc t k K = has_line bt bc t k K') -> sums ts V K'.
Proof.
  intros (A1 & A2 & A3) H. split; [exact A1|]. split; [intros t k; rewrite <- H; apply A2|]. intros t k. rewrite A3, H. reflexivity.
Qed.
Lemma has_incl t k l l' : incl l l' -> has_line bt bc t k l = true -> has_line bt bc t k l' = true.
Proof. intros I H. apply existsb_exists in H as (e & J & B). apply existsb_exists. exists e. auto. Qed.
Lemma merge_time_spec m order V K acc : cols m order V K -> In acc order -> (forall k, In k order -> incl (K k) (K acc)) ->
  exists m', merge_time conv acc (aget acc m) m = Ok m' /\ cols m' order V (fun _ => K acc).
Proof.
  intros C Ia Hi. destruct (cols_get _ _ _ _ acc C Ia) as (ta & Ea & Sa). rewrite Ea.
  assert (G : forall l, (forall k ts, In (k, ts) l -> sums ts (V k) (K k) /\ incl (K k) (K acc)) ->
    exists l', merge_time conv acc (Some ta) l = Ok l' /\ map fst l' = map fst l /\ forall k ts, In (k, ts) l' -> sums ts (V k) (K acc)).
  { induction l as [|[k ts] l IH]; intros H; cbn [merge_time].
    - exists []. split; [reflexivity|]. split; [reflexivity|]. intros ? ? [].
    - destruct (IH (fun k' t' I => H k' t' (or_intror I))) as (l' & El & Ml & Sl). destruct (H k ts (or_introl eq_refl)) as [Sk Ik].
      destruct (eq_key k acc) eqn:E.
      + rewrite El. cbn [bind]. eexists. split; [reflexivity|]. split; [cbn [map fst]; f_equal; exact Ml|]. intros k' t' [[= <- <-]|J]; [|auto].
        apply eq_key_iff in E. subst k. exact Sk.
      + destruct (merge_keys_rep conv bt bc com ts ta _ _ _ _ Hagg Sk Sa) as (t' & Et & St). rewrite Et. cbn [bind]. rewrite El. cbn [bind].
        eexists. split; [reflexivity|]. split; [cbn [map fst]; f_equal; exact Ml|]. intros k' t0 [[= <- <-]|J]; [|auto].
        eapply sums_keys; [exact St|]. intros t c. rewrite has_app. destruct (has_line bt bc t c (K k)) eqn:Eh; [|reflexivity].
        rewrite (has_incl _ _ _ _ Ik Eh). reflexivity. }
  destruct C as (N & I & S). destruct (G m) as (m' & E & M' & S').
  { intros k ts J. split; [auto|]. apply Hi, I, in_map_iff. exists (k, ts). auto. }
  exists m'. split; [exact E|]. split; [rewrite M'; exact N|]. split; [rewrite M'; exact I|exact S'].
Qed.

(** ** rows *)
(** a column of the grid: the lines of [K], with amounts [g] *)
Definition column (ts : tts) (K : list entry) (g : Z -> bytes -> Z) : Prop :=
  timeline_ok bt bc com ts /\ forall t k, amount_on bc (cells ts) t k = if has_line bt bc t k K then Some (mkAmount (g t k) com) else None.
Lemma sums_column ts V K : sums ts V K -> column ts K (fun t k => line_sum bt bc t k V).
Proof. intros (A1 & _ & A3). split; auto. Qed.
Lemma up_eq : forall l l', StronglySorted Z.lt l -> StronglySorted Z.lt l' -> (forall x, In x l <-> In x l') -> l = l'.
Proof.
  induction l as [|a l IH]; intros l' S S' H.
  - destruct l' as [|b l']; [reflexivity|]. destruct (proj2 (H b) (or_introl eq_refl)).
  - destruct l' as [|b l']; [destruct (proj1 (H a) (or_introl eq_refl))|].
    inversion S as [|? ? S1 S2]; subst. inversion S' as [|? ? S1' S2']; subst. rewrite Forall_forall in S2, S2'.
    assert (a = b).
    { destruct (proj1 (H a) (or_introl eq_refl)) as [E|I]; [auto|]. destruct (proj2 (H b) (or_introl eq_refl)) as [E|J]; [auto|].
      specialize (S2 _ J). specialize (S2' _ I). lia. }
    subst b. f_equal. apply IH; auto. intros x. split; intros I.
    + destruct (proj1 (H x) (or_intror I)) as [E|J]; [|exact J]. subst. specialize (S2 _ I). lia.
    + destruct (proj2 (H x) (or_intror I)) as [E|J]; [|exact J]. subst. specialize (S2' _ I). lia.
Qed.
Lemma times_sorted l : times_up l -> StronglySorted Z.lt (map c_time l).
Proof.
  induction 1 as [|a l H IH F]; cbn [map]; constructor; [exact IH|]. apply Forall_forall. intros x I. apply in_map_iff in I as (c & <- & I).
  rewrite Forall_forall in F. auto.
Qed.
Lemma column_times ts K g t : column ts K g -> (In t (map c_time (cells ts)) <-> exists k, has_line bt bc t k K = true).
Proof.
  intros ((_ & _ & (U & O) & _) & L). split.
  - intros I. apply in_map_iff in I as (c & <- & I). rewrite Forall_forall in O. destruct (cell_has bc com c (O c I)) as (k & Hk). exists k.
    specialize (L (c_time c) k). unfold amount_on in L. rewrite (find_self _ _ U I) in L. destruct (has_line bt bc (c_time c) k K); congruence.
  - intros (k & Hk). specialize (L t k). rewrite Hk in L. unfold amount_on in L. destruct (List.find _ (cells ts)) as [c|] eqn:E; [|discriminate].
    apply List.find_some in E as [I E]. apply in_map_iff. exists c. split; [lia|exact I].
Qed.
Lemma columns_times ts ts' K g g' : column ts K g -> column ts' K g' -> map c_time (cells ts) = map c_time (cells ts').
Proof.
  intros C C'. apply up_eq; [apply times_sorted, C|apply times_sorted, C'|]. intros t. rewrite (column_times ts K g), (column_times ts' K g'); tauto.
Qed.
Lemma column_cell ts K g c k : column ts K g -> In c (cells ts) -> has_line bt bc (c_time c) k K = true ->
  value_in_cell bc k c = Some (mkAmount (g (c_time c) k) com).
Proof.
  intros (TO & L) I H. specialize (L (c_time c) k). rewrite H in L. unfold amount_on in L. rewrite (find_self _ _) in L; [exact L|apply TO|exact I].
Qed.
Definition hasp : bool := match bt with Some _ => true | None => false end.
Definition cat_ok (k : bytes) : Prop := if bc then k <> [] else k = [].
Lemma row_spec m (K : list entry) (g : option bytes -> Z -> bytes -> Z) i t k : forall order,
  (forall a, In a order -> exists ts, aget a m = Some ts /\ column ts K (g a) /\ nth_error (map c_time (cells ts)) i = Some t) ->
  has_line bt bc t k K = true -> cat_ok k ->
  row_amounts hasp m order i t k = Ok (map (fun a => mkAmount (g a t k) com) order).
Proof.
  induction order as [|a order IH]; intros H Hl Hk; cbn [row_amounts map]; [reflexivity|].
  destruct (H a (or_introl eq_refl)) as (ts & Ea & C & Et). rewrite Ea.
  destruct (nth_error (cells ts) i) as [c|] eqn:En; [|apply nth_error_None in En; rewrite nth_error_map in Et; rewrite (proj2 (nth_error_None _ _) En) in Et; discriminate].
  assert (Tc : c_time c = t) by (rewrite nth_error_map, En in Et; injection Et as ->; reflexivity).
  assert (Ic : In c (cells ts)) by (eapply nth_error_In; exact En).
  assert (Ex : (if hasp then Some c else last_cell (cells ts)) = Some c).
  { unfold hasp. destruct bt as [r|] eqn:Ebt; [reflexivity|]. destruct C as ((_ & _ & (U & _) & Z0) & _).
    destruct (up_one _ U (Z0 Ebt)) as [E|(c' & E)]; rewrite E in *; [destruct Ic|]. destruct Ic as [->|[]]. reflexivity. }
  rewrite Ex.
  rewrite Tc, Z.eqb_refl. cbn [negb]. rewrite andb_false_r.
  assert (Ha : amount_at c k = Some (mkAmount (g a t k) com)).
  { rewrite <- Tc in *. rewrite <- (column_cell ts K (g a) c k C Ic Hl). unfold amount_at, value_in_cell, cat_ok in *. destruct bc.
    - destruct k; [tauto|reflexivity].
    - subst k. reflexivity. }
  rewrite Ha. rewrite IH; [reflexivity|intros b Ib; apply H; right; exact Ib|exact Hl|exact Hk].
Qed.
Lemma category_rows_spec m (g : option bytes -> Z -> bytes -> Z) i t order ks : (forall k, In k ks -> row_amounts hasp m order i t k = Ok (map (fun a => mkAmount (g a t k) com) order)) ->
  category_rows hasp m order i t ks = Ok (map (fun k => (t, k, map (fun a => mkAmount (g a t k : Z) com) order)) ks).
Proof.
  intros H. induction ks as [|k ks IH]; cbn [category_rows map]; [reflexivity|].
  rewrite (H k (or_introl eq_refl)). cbn [bind]. rewrite IH by (intros k' I; apply H; right; exact I). reflexivity.
Qed.
Lemma categories_spec ts K g c k : column ts K g -> In c (cells ts) ->
  (In k (categories c) <-> has_line bt bc (c_time c) k K = true /\ (bc = false -> k = [])).
Proof.
  intros C I. assert (C' := C). destruct C as ((_ & _ & (U & O) & _) & L). rewrite Forall_forall in O. specialize (O c I). unfold cell_ok in *.
  specialize (L (c_time c)). unfold amount_on in L. rewrite (find_self _ _ U I) in L. unfold value_in_cell in L. destruct bc.
  - destruct O as (_ & Z' & N & _). assert (Ec : categories c = sort_strings (map fst (c_cats c))) by (unfold categories; destruct (c_cats c); [tauto|reflexivity]).
    assert (E : In k (sort_strings (map fst (c_cats c))) <-> In k (map fst (c_cats c))).
    { split; apply Permutation_in; [symmetry|]; apply sort_strings_perm. }
    rewrite Ec, E. specialize (L k). destruct (has_line bt true (c_time c) k K).
    + split; [intros _; split; [reflexivity|discriminate]|]. intros _. destruct (in_dec (list_eq_dec ascii_dec) k (map fst (c_cats c))) as [J|J]; [exact J|].
      apply bget_none in J. congruence.
    + split; [|intros [H _]; discriminate]. intros J. apply bget_none in L. tauto.
  - destruct O as ((a & T & _) & Ec). unfold categories. rewrite Ec. cbn [In]. specialize (L k). rewrite T in L. destruct (has_line bt false (c_time c) k K); [|discriminate].
    split; [intros [<-|[]]; auto|]. intros [_ H]. left. symmetry. auto.
Qed.
Definition grid (order : list (option bytes)) (g : option bytes -> Z -> bytes -> Z) (l : list cell) : list (Z * bytes * list amount) :=
  flat_map (fun c => map (fun k => (c_time c, k, map (fun a => mkAmount (g a (c_time c) k) com) order)) (categories c)) l.
Lemma rows_spec m order K g : order <> [] -> (forall a, In a order -> exists ts, aget a m = Some ts /\ column ts K (g a)) ->
  (bc = true -> Forall (fun e => e_cat e <> []) K) ->
  exists l, rows m order = Ok (grid order g l) /\ (exists ts a, In a order /\ column ts K (g a) /\ cells ts = l /\ aget (hd None order) m = Some ts).
Proof.
  intros Hne H Hcat. destruct order as [|a0 order']; [tauto|]. set (order := a0 :: order') in *. unfold rows. fold order.
  destruct (H a0 (or_introl eq_refl)) as (f & Ef & Cf). unfold order. rewrite Ef. fold order. exists (cells f). split; [|exists f, a0; split; [left; reflexivity|auto 6]].
  assert (Eh : (match by_time f with Some _ => true | None => false end) = hasp) by (unfold hasp; destruct Cf as ((-> & _) & _); reflexivity). rewrite Eh.
  assert (G : forall l pre, cells f = pre ++ l -> period_rows hasp m order (List.length pre) l = Ok (grid order g l)).
  { induction l as [|c l IH]; intros pre El; cbn [period_rows]; [reflexivity|].
    assert (Ic : In c (cells f)) by (rewrite El; apply in_app_iff; right; left; reflexivity).
    rewrite (category_rows_spec m g (List.length pre) (c_time c) order (categories c)).
    2:{ intros k Ik. apply (categories_spec f K (g a0) c k Cf Ic) in Ik as [Hl Hk]. apply row_spec with (K := K); [|exact Hl|].
      + intros a Ia. destruct (H a Ia) as (ts & Ea & Ca). exists ts. split; [exact Ea|]. split; [exact Ca|].
        rewrite (columns_times ts f K _ _ Ca Cf), El, map_app. rewrite nth_error_app2 by (rewrite map_length; lia). rewrite map_length, Nat.sub_diag. reflexivity.
      + unfold cat_ok. destruct bc; [|auto]. apply existsb_exists in Hl as (e & Ie & He). unfold belongs in He. apply andb_prop in He as [_ He].
        apply eqb_bytes_iff in He. subst k. specialize (Hcat eq_refl). rewrite Forall_forall in Hcat. auto. }
    { cbn [bind]. specialize (IH (pre ++ [c])). rewrite app_length in IH. cbn in IH. rewrite Nat.add_1_r in IH. rewrite IH by (rewrite El, <- app_assoc; reflexivity).
      reflexivity. } }
  apply (G (cells f) []). reflexivity.
Qed.
End Agg.
