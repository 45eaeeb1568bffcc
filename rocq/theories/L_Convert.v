(** Lemmas about price lists and conversion. *)
From Coq Require Import Permutation Sorted.
From Verif Require Import Base M_Amount M_Convert S_Decimal S_Amount S_Convert L_Dec L_Amount.

Lemma assoc_in {A} k (l : list (commodity * A)) v : assoc k l = Some v -> In (k, v) l.
Proof.
  induction l as [|[k' v'] r IH]; cbn [assoc]; [discriminate|].
  destruct (eq_commodity k k') eqn:E.
  - apply eq_commodity_eq in E. subst. intros H; injection H as ->. left; reflexivity.
  - intros H. right. auto.
Qed.
Lemma assoc_nodup {A} k (l : list (commodity * A)) v : NoDup (map fst l) -> In (k, v) l -> assoc k l = Some v.
Proof.
  induction l as [|[k' v'] r IH]; cbn [map assoc In]; [contradiction|].
  intros N H. inversion N as [|? ? N1 N2]; subst. destruct H as [H|H].
  - injection H as -> ->. rewrite eq_commodity_refl. reflexivity.
  - destruct (eq_commodity k k') eqn:E; [|auto].
    apply eq_commodity_eq in E. subst. exfalso. apply N1. cbn. apply in_map_iff. exists (k', v). auto.
Qed.
Lemma included_in_spec c l : included_in c l = true <-> In c l.
Proof.
  unfold included_in. rewrite existsb_exists. split.
  - intros (x & Hx & E). apply eq_commodity_eq in E. subst. auto.
  - intros H. exists c. split; auto. apply eq_commodity_refl.
Qed.

Definition decs_ok (db : pricedb) : Prop :=
  forall a b p ps, In (b, p :: ps) (prices_of db a) -> (c_dec (a_com (p_value p)) <= 50)%nat.
Definition lists_ok (db : pricedb) : Prop := forall a b ps, In (b, ps) (prices_of db a) -> ps <> [].

Lemma prices_of_in db a x : In x (prices_of db a) -> exists m, In (a, m) db /\ In x m.
Proof.
  unfold prices_of. destruct (assoc a db) as [m|] eqn:E; [|contradiction].
  intros H. exists m. split; auto. apply assoc_in. auto.
Qed.
Lemma db_ok_lists db : db_ok db -> lists_ok db.
Proof.
  intros [_ H] a b ps I. apply prices_of_in in I. destruct I as (m & I1 & I2).
  destruct (H _ _ I1) as [_ H2]. apply (H2 _ _ I2).
Qed.
Lemma db_ok_decs db : db_ok db -> decs_ok db.
Proof.
  intros [_ H] a b p ps I. apply prices_of_in in I. destruct I as (m & I1 & I2).
  destruct (H _ _ I1) as [_ H2]. destruct (H2 _ _ I2) as [_ F]. inversion F; auto.
Qed.
Lemma db_ok_nodup db a : db_ok db -> NoDup (map fst (prices_of db a)).
Proof.
  intros [_ H]. unfold prices_of. destruct (assoc a db) as [m|] eqn:E; [|constructor].
  apply assoc_in in E. apply (H _ _ E).
Qed.

(** keys that appear as currencies *)
Definition currencies (db : pricedb) : list commodity := flat_map (fun e => map fst (snd e)) db.
Lemma currencies_length db : List.length (currencies db) = db_size db.
Proof.
  unfold currencies, db_size. induction db as [|[a m] r IH]; cbn [flat_map fold_right snd]; auto.
  rewrite app_length, map_length, IH. reflexivity.
Qed.
Lemma prices_of_currencies db a b ps : In (b, ps) (prices_of db a) -> In b (currencies db).
Proof.
  intros H. apply prices_of_in in H. destruct H as (m & H1 & H2).
  unfold currencies. apply in_flat_map. exists (a, m). split; auto. cbn. apply in_map_iff. exists (b, ps). auto.
Qed.

Lemma times_ok_or_panic am p : times am p <> Fail.
Proof. unfold times. destruct (big_pow10_cases (a_dec p)) as [[_ ->]|[_ ->]]; discriminate. Qed.

(** the inner loop, named *)
Definition loop_fn (f : nat) db o c am c2 previous : pmap -> option (res amount) :=
  fix loop (es : pmap) : option (res amount) :=
         match es with
         | [] => Some Fail
         | (c3, ps) :: r =>
             if included_in c3 previous then loop r
             else match ps with
                  | [] => Some Panic
                  | p :: _ =>
                      match times am (p_value p) with
                      | Panic => Some Panic
                      | Fail => Some Fail
                      | Ok val2 =>
                          match convert_fuel f db o c val2 c3 (previous ++ [c2]) with
                          | None => None
                          | Some (Ok v) => Some (Ok v)
                          | Some Fail => loop r
                          | Some Panic => Some Panic
                          end
                      end
                  end
         end.
Lemma convert_unfold f db o c am c2 previous :
  convert_fuel (S f) db o c am c2 previous =
  if eq_commodity c c2 then Some (Ok am)
  else match assoc c (prices_of db c2) with
       | Some [] => Some Panic
       | Some (p :: _) => Some (times am (p_value p))
       | None => loop_fn f db o c am c2 previous (o previous c2 (prices_of db c2))
       end.
Proof. reflexivity. Qed.

(** never panics on well formed databases *)
Lemma convert_no_panic db o c : order_ok o -> lists_ok db -> decs_ok db ->
  forall f am c2 prev, convert_fuel f db o c am c2 prev <> Some Panic.
Proof.
  intros Ho Hl Hd. induction f as [|f IH]; intros am c2 prev; [discriminate|].
  rewrite convert_unfold. destruct (eq_commodity c c2); [discriminate|].
  destruct (assoc c (prices_of db c2)) as [[|p ps]|] eqn:E.
  - exfalso. apply assoc_in in E. apply (Hl _ _ _ E eq_refl).
  - apply assoc_in in E. rewrite times_ok by (apply (Hd _ _ _ _ E)). discriminate.
  - assert (forall x, In x (o prev c2 (prices_of db c2)) -> In x (prices_of db c2)) as Sub.
    { intros x Hx. eapply Permutation_in; [apply Permutation_sym, Ho|]; eauto. }
    revert Sub. generalize (o prev c2 (prices_of db c2)) as es.
    induction es as [|[c3 ps] r IHr]; intros Sub; cbn [loop_fn]; [discriminate|].
    destruct (included_in c3 prev); [apply IHr; intros; apply Sub; right; auto|].
    destruct ps as [|p ps].
    { exfalso. apply (Hl _ _ _ (Sub _ (or_introl eq_refl)) eq_refl). }
    rewrite times_ok by (apply (Hd _ _ _ _ (Sub _ (or_introl eq_refl)))).
    destruct (convert_fuel f db o c _ c3 (prev ++ [c2])) as [[v| |]|] eqn:C; try discriminate.
    + apply IHr; intros; apply Sub; right; auto.
    + exfalso. apply (IH _ _ _ C).
Qed.

(** fuel *)
Lemma count_remove (l : list commodity) x :
  List.length l = (count_occ commodity_dec l x + List.length (remove commodity_dec x l))%nat.
Proof.
  induction l as [|y r IH]; cbn [count_occ remove List.length]; auto.
  destruct (commodity_dec y x) as [E1|N]; destruct (commodity_dec x y) as [E|N2]; try congruence; cbn [List.length]; lia.
Qed.
Lemma count_occ_remove_le (l : list commodity) u x :
  (count_occ commodity_dec (remove commodity_dec u l) x <= count_occ commodity_dec l x)%nat.
Proof.
  induction l as [|y r IH]; cbn [remove count_occ]; [lia|].
  destruct (commodity_dec u y); cbn [count_occ]; destruct (commodity_dec y x); lia.
Qed.
Lemma count_bounded_length (U : list commodity) : forall l,
  (forall x, In x l -> In x U) -> (forall x, (count_occ commodity_dec l x <= 2)%nat) ->
  (List.length l <= 2 * List.length U)%nat.
Proof.
  induction U as [|u U IH]; intros l Hin Hc.
  - destruct l as [|x r]; cbn; [lia|]. exfalso. apply (Hin x). left; reflexivity.
  - rewrite (count_remove l u). specialize (IH (remove commodity_dec u l)).
    assert (List.length (remove commodity_dec u l) <= 2 * List.length U)%nat.
    { apply IH.
      - intros x Hx. apply in_remove in Hx. destruct Hx as [Hx Nx]. destruct (Hin x Hx) as [E|E]; [congruence|exact E].
      - intros x. destruct (commodity_dec x u) as [->|N].
        + assert (count_occ commodity_dec (remove commodity_dec u l) u = O) as ->; [|lia].
          apply count_occ_not_In. apply remove_In.
        + transitivity (count_occ commodity_dec l x); auto. apply count_occ_remove_le. }
    specialize (Hc u). cbn [List.length]. lia.
Qed.

Lemma convert_fuel_enough db o c (U : list commodity) : order_ok o ->
  (forall a b ps, In (b, ps) (prices_of db a) -> In b U) ->
  forall f am c2 prev,
    In c2 U -> (forall x, In x prev -> In x U) ->
    (forall x, (count_occ commodity_dec prev x <= 2)%nat) ->
    (count_occ commodity_dec prev c2 <= 1)%nat ->
    (2 * List.length U + 1 <= f + List.length prev)%nat ->
    convert_fuel f db o c am c2 prev <> None.
Proof.
  intros Ho HU. induction f as [|f IH]; intros am c2 prev Hc2 Hprev Hc Hc21 Hf.
  - exfalso. pose proof (count_bounded_length U prev Hprev Hc). lia.
  - rewrite convert_unfold. destruct (eq_commodity c c2); [discriminate|].
    destruct (assoc c (prices_of db c2)) as [[|p ps]|]; [discriminate|discriminate|].
    assert (forall x, In x (o prev c2 (prices_of db c2)) -> In x (prices_of db c2)) as Sub.
    { intros x Hx. eapply Permutation_in; [apply Permutation_sym, Ho|]; eauto. }
    revert Sub. generalize (o prev c2 (prices_of db c2)) as es.
    induction es as [|[c3 ps] r IHr]; intros Sub; cbn [loop_fn]; [discriminate|].
    destruct (included_in c3 prev) eqn:I; [apply IHr; intros; apply Sub; right; auto|].
    destruct ps as [|p ps]; [discriminate|].
    destruct (times am (p_value p)) as [v| |]; [|discriminate|discriminate].
    destruct (convert_fuel f db o c v c3 (prev ++ [c2])) as [[w| |]|] eqn:C; try discriminate.
    + apply IHr; intros; apply Sub; right; auto.
    + exfalso. revert C.
      assert (~ In c3 prev) as NI by (intros X; apply included_in_spec in X; congruence).
      apply IH.
      * eapply HU. apply Sub. left; reflexivity.
      * intros x Hx. apply in_app_or in Hx. destruct Hx as [Hx|[<-|[]]]; auto.
      * intros x. rewrite count_occ_app. cbn [count_occ]. destruct (commodity_dec c2 x) as [<-|N]; [lia|].
        specialize (Hc x). lia.
      * rewrite count_occ_app. apply (count_occ_not_In commodity_dec) in NI. rewrite NI. cbn [count_occ].
        destruct (commodity_dec c2 c3); lia.
      * rewrite app_length. cbn [List.length]. lia.
Qed.
Lemma convert_terminates db o c am c2 : order_ok o -> convert db o c am c2 <> None.
Proof.
  intros Ho. unfold convert. apply (convert_fuel_enough db o c (c2 :: currencies db) Ho).
  - intros a b ps H. right. eapply prices_of_currencies; eauto.
  - left; reflexivity.
  - intros x [].
  - intros x. cbn. lia.
  - cbn. lia.
  - cbn [List.length]. rewrite currencies_length. lia.
Qed.

(** soundness: the result is a product along a chain *)
Lemma convert_sound db o c : order_ok o -> db_ok db -> forall f am c2 prev v,
  convert_fuel f db o c am c2 prev = Some (Ok v) ->
  exists ps, chain db c2 c ps /\ times_all am ps = Ok v.
Proof.
  intros Ho Hdb. induction f as [|f IH]; intros am c2 prev v H; [discriminate|].
  rewrite convert_unfold in H. destruct (eq_commodity c c2) eqn:E.
  { apply eq_commodity_eq in E. subst. injection H as <-. exists []. split; [constructor|reflexivity]. }
  destruct (assoc c (prices_of db c2)) as [[|p ps]|] eqn:A; [discriminate| |].
  - injection H as H. exists [p]. split.
    + econstructor; [exists ps; exact A|constructor].
    + cbn [times_all]. rewrite H. reflexivity.
  - assert (forall x, In x (o prev c2 (prices_of db c2)) -> In x (prices_of db c2)) as Sub.
    { intros x Hx. eapply Permutation_in; [apply Permutation_sym, Ho|]; eauto. }
    revert Sub H. generalize (o prev c2 (prices_of db c2)) as es.
    induction es as [|[c3 ps] r IHr]; intros Sub; cbn [loop_fn]; [discriminate|].
    destruct (included_in c3 prev); [apply IHr; intros; apply Sub; right; auto|].
    destruct ps as [|p ps]; [discriminate|].
    destruct (times am (p_value p)) as [val2| |] eqn:T; [|discriminate|discriminate].
    destruct (convert_fuel f db o c val2 c3 (prev ++ [c2])) as [[w| |]|] eqn:C; try discriminate.
    + intros H; injection H as ->. apply IH in C. destruct C as (qs & Ch & Tm).
      exists (p :: qs). split.
      * econstructor; [|exact Ch]. exists ps. apply assoc_nodup; [apply db_ok_nodup; auto|]. apply Sub. left; reflexivity.
      * cbn [times_all]. rewrite T. exact Tm.
    + apply IHr; intros; apply Sub; right; auto.
Qed.

(** completeness: along a simple path *)
Inductive spath (db : pricedb) : commodity -> commodity -> list commodity -> Prop :=
| spath_nil a : spath db a a []
| spath_cons a b c vs p : priced db a b p -> spath db b c vs -> ~ In a (b :: vs) -> spath db a c (b :: vs).

Lemma spath_suffix db a c vs x : spath db a c vs -> In x vs -> exists vs', spath db x c vs' /\ incl vs' vs.
Proof.
  induction 1 as [a|a b c vs p Hp Hs IH Hn]; intros Hx; [contradiction|].
  destruct Hx as [->|Hx].
  - exists vs. split; auto. intros y Hy. right; auto.
  - destruct (IH Hx) as (vs' & S & I). exists vs'. split; auto. intros y Hy. right; auto.
Qed.
Lemma chain_spath db a c ps : chain db a c ps -> exists vs, spath db a c vs.
Proof.
  induction 1 as [a|a b c p ps Hp Hc IH]; [exists []; constructor|].
  destruct IH as (vs & S). destruct (in_dec commodity_dec a (b :: vs)) as [[->|I]|N].
  - exists vs. auto.
  - destruct (spath_suffix _ _ _ _ _ S I) as (vs' & S' & _). exists vs'. auto.
  - exists (b :: vs). econstructor; eauto.
Qed.

Lemma convert_complete db o c : order_ok o ->
  forall f am c2 prev vs, spath db c2 c vs -> (forall x, In x vs -> ~ In x prev) ->
  convert_fuel f db o c am c2 prev <> Some Fail.
Proof.
  intros Ho. induction f as [|f IH]; intros am c2 prev vs Hp Hn; [discriminate|].
  rewrite convert_unfold. destruct (eq_commodity c c2) eqn:E; [discriminate|].
  destruct Hp as [a|a b c vs p [ps Hpr] Hs Hna].
  { rewrite eq_commodity_refl in E. discriminate. }
  destruct (assoc c (prices_of db a)) as [[|q qs]|] eqn:A.
  - discriminate.
  - intros H. injection H as H. apply (times_ok_or_panic _ _ H).
  - assert (In (b, p :: ps) (o prev a (prices_of db a))) as I.
    { eapply Permutation_in; [apply Ho|]. apply assoc_in. auto. }
    revert I. generalize (o prev a (prices_of db a)) as es.
    induction es as [|[c3 ps3] r IHr]; intros I; cbn [loop_fn]; [contradiction|].
    destruct I as [I|I].
    + injection I as -> ->.
      destruct (included_in b prev) eqn:X; [apply included_in_spec in X; exfalso; apply (Hn b); [left|]; auto|].
      destruct (times am (p_value p)) as [val2| |] eqn:T; [|exfalso; apply (times_ok_or_panic _ _ T)|discriminate].
      destruct (convert_fuel f db o c val2 b (prev ++ [a])) as [[w| |]|] eqn:C; try discriminate.
      exfalso. revert C. eapply IH; [exact Hs|].
      intros x Hx Hin. apply in_app_or in Hin. destruct Hin as [Hin|[<-|[]]].
      * apply (Hn x); [right|]; auto.
      * apply Hna. right. auto.
    + destruct (included_in c3 prev); [auto|]. destruct ps3 as [|q qs]; [discriminate|].
      destruct (times am (p_value q)) as [val2| |] eqn:T; [|exfalso; apply (times_ok_or_panic _ _ T)|discriminate].
      destruct (convert_fuel f db o c val2 c3 (prev ++ [a])) as [[w| |]|] eqn:C; try discriminate. auto.
Qed.

Lemma convert_iff db o c am c2 : order_ok o -> db_ok db ->
  (exists v, convert db o c am c2 = Some (Ok v)) \/ convert db o c am c2 = Some Fail.
Proof.
  intros Ho Hdb. destruct (convert db o c am c2) as [[v| |]|] eqn:E; eauto.
  - exfalso. revert E. apply convert_no_panic; auto using db_ok_lists, db_ok_decs.
  - exfalso. revert E. apply convert_terminates; auto.
Qed.
Lemma convert_ok_iff db o c am c2 : order_ok o -> db_ok db ->
  ((exists v, convert db o c am c2 = Some (Ok v)) <-> exists ps, chain db c2 c ps).
Proof.
  intros Ho Hdb. split.
  - intros (v & H). apply convert_sound in H; auto. destruct H as (ps & H & _). eauto.
  - intros (ps & H). apply chain_spath in H. destruct H as (vs & H).
    destruct (convert_iff db o c am c2 Ho Hdb) as [V|V]; auto.
    exfalso. revert V. unfold convert. eapply convert_complete; eauto.
Qed.

Lemma convert_direct db o c am c2 p : c <> c2 -> priced db c2 c p ->
  convert db o c am c2 = Some (times am (p_value p)).
Proof.
  intros N (ps & H). unfold convert. rewrite Nat.add_comm. cbn [Nat.add]. rewrite convert_unfold.
  rewrite (proj2 (eq_commodity_neq c c2) N), H. reflexivity.
Qed.
Lemma convert_same db o c am : convert db o c am c = Some (Ok am).
Proof. unfold convert. rewrite Nat.add_comm. cbn [Nat.add]. rewrite convert_unfold, eq_commodity_refl. reflexivity. Qed.

Lemma times_all_com ps : forall am v, times_all am ps = Ok v -> a_com v = a_com am.
Proof.
  induction ps as [|p r IH]; intros am v; cbn [times_all].
  - intros H; injection H as ->; auto.
  - destruct (times am (p_value p)) as [w| |] eqn:T; try discriminate. cbn [bind]. intros H.
    apply IH in H. rewrite H. apply times_value in T. tauto.
Qed.
Lemma convert_label db o c am c2 v : order_ok o -> db_ok db ->
  convert db o c am c2 = Some (Ok v) -> a_com v = a_com am.
Proof.
  intros Ho Hdb H. apply convert_sound in H; auto. destruct H as (ps & _ & T). eapply times_all_com; eauto.
Qed.

(** no choice: at most one currency per commodity *)
Lemma convert_deterministic_single db o o' c : order_ok o -> order_ok o' ->
  (forall a, (List.length (prices_of db a) <= 1)%nat) ->
  forall f am c2 prev, convert_fuel f db o c am c2 prev = convert_fuel f db o' c am c2 prev.
Proof.
  intros Ho Ho' H1. induction f as [|f IH]; intros am c2 prev; [reflexivity|].
  rewrite !convert_unfold. destruct (eq_commodity c c2); auto.
  destruct (assoc c (prices_of db c2)) as [[|p ps]|]; auto.
  assert (o prev c2 (prices_of db c2) = o' prev c2 (prices_of db c2)) as ->.
  { specialize (H1 c2). specialize (Ho prev c2 (prices_of db c2)). specialize (Ho' prev c2 (prices_of db c2)).
    destruct (prices_of db c2) as [|x [|y r]]; cbn in H1; try lia.
    - apply Permutation_nil in Ho. apply Permutation_nil in Ho'. congruence.
    - apply Permutation_length_1_inv in Ho. apply Permutation_length_1_inv in Ho'. congruence. }
  generalize (o' prev c2 (prices_of db c2)) as es.
  induction es as [|[c3 ps] r IHr]; cbn [loop_fn]; auto.
  destruct (included_in c3 prev); auto. destruct ps as [|p ps]; auto.
  destruct (times am (p_value p)) as [val2| |]; auto. rewrite IH.
  destruct (convert_fuel f db o' c val2 c3 (prev ++ [c2])) as [[w| |]|]; auto.
Qed.

(** ** ResolvePrices *)
Lemma assoc_upd_same {A} k (f : option A -> A) l : assoc k (assoc_upd k f l) = Some (f (assoc k l)).
Proof.
  induction l as [|[k' v] r IH]; cbn [assoc_upd assoc].
  - rewrite eq_commodity_refl. reflexivity.
  - destruct (eq_commodity k k') eqn:E; cbn [assoc]; rewrite E; auto.
Qed.
Lemma assoc_upd_other {A} k k2 (f : option A -> A) l : k2 <> k -> assoc k2 (assoc_upd k f l) = assoc k2 l.
Proof.
  intros N. induction l as [|[k' v] r IH]; cbn [assoc_upd assoc].
  - rewrite (proj2 (eq_commodity_neq k2 k) N). reflexivity.
  - destruct (eq_commodity k k') eqn:E; cbn [assoc].
    + apply eq_commodity_eq in E. subst k'. rewrite (proj2 (eq_commodity_neq k2 k) N). reflexivity.
    + rewrite IH. reflexivity.
Qed.
Lemma pair_prices_add db c cur p a b :
  pair_prices (add_price db c cur p) a b =
  pair_prices db a b ++ (if eq_commodity a c && eq_commodity b cur then [p] else []).
Proof.
  unfold pair_prices, add_price, prices_of.
  destruct (eq_commodity a c) eqn:Ea; cbn [andb].
  - apply eq_commodity_eq in Ea. subst a. rewrite assoc_upd_same.
    destruct (eq_commodity b cur) eqn:Eb.
    + apply eq_commodity_eq in Eb. subst b. rewrite assoc_upd_same. destruct (assoc c db); reflexivity.
    + apply eq_commodity_neq in Eb. rewrite assoc_upd_other by auto. rewrite app_nil_r.
      destruct (assoc c db); reflexivity.
  - apply eq_commodity_neq in Ea. rewrite assoc_upd_other by auto. rewrite app_nil_r. reflexivity.
Qed.

Lemma add_prices_pairs find ps : forall db db', add_prices find ps db = Ok db' ->
  forall a b, pair_prices db' a b = pair_prices db a b ++ recorded find ps a b.
Proof.
  induction ps as [|p r IH]; intros db db' H a b; cbn [add_prices recorded filter] in *.
  - injection H as <-. rewrite app_nil_r. reflexivity.
  - unfold must_find_commodity in H.
    destruct (find (p_com_id p)) as [c|]; [|discriminate].
    destruct (find (p_cur_id p)) as [cur|]; [|discriminate]. cbn [bind] in H.
    rewrite (IH _ _ H a b), pair_prices_add, <- app_assoc. f_equal.
    destruct (eq_commodity a c && eq_commodity b cur); reflexivity.
Qed.

Lemma forall2_assoc {A B} (R : A -> B -> Prop) (l : list (commodity * A)) (l' : list (commodity * B)) k :
  Forall2 (fun x x' => fst x = fst x' /\ R (snd x) (snd x')) l l' ->
  match assoc k l, assoc k l' with
  | Some a, Some b => R a b
  | None, None => True
  | _, _ => False
  end.
Proof.
  induction 1 as [|[k1 a] [k2 b] l l' [E HR] HF IH]; cbn [assoc]; auto.
  cbn in E. subst k2. destruct (eq_commodity k k1); auto.
Qed.

Lemma resolve_prices_pairs find ps db' ps' a b : resolve_prices find ps db' ps' ->
  sort_slice (fun x y => p_time y <? p_time x) (recorded find ps a b) (pair_prices db' a b).
Proof.
  intros (db & A & F & _). pose proof (add_prices_pairs _ _ _ _ A a b) as P.
  change (pair_prices [] a b) with (@nil price) in P. cbn [app] in P. rewrite <- P.
  unfold pair_prices, prices_of. pose proof (@forall2_assoc pmap pmap _ _ _ a F) as FA.
  destruct (assoc a db) as [m|], (assoc a db') as [m'|]; try contradiction.
  - pose proof (forall2_assoc _ _ _ b FA) as FB.
    destruct (assoc b m) as [l|], (assoc b m') as [l'|]; try contradiction; auto.
    split; constructor.
  - split; constructor.
Qed.
Lemma sorted_head_latest l l' p r : sort_slice (fun x y => p_time y <? p_time x) l l' -> l' = p :: r ->
  In p l /\ forall q, In q l -> p_time q <= p_time p.
Proof.
  intros [P S] ->. split.
  - eapply Permutation_in; [apply Permutation_sym; eauto|left; reflexivity].
  - intros q Hq. eapply Permutation_in in Hq; [|eauto]. destruct Hq as [->|Hq]; [lia|].
    inversion S as [|? ? _ F]; subst. rewrite Forall_forall in F. specialize (F q Hq). cbv beta in F. lia.
Qed.
Lemma recorded_perm find ps qs a b : Permutation ps qs -> Permutation (recorded find ps a b) (recorded find qs a b).
Proof.
  unfold recorded.
  set (f := fun p => match find (p_com_id p), find (p_cur_id p) with
                   | Some x, Some y => eq_commodity a x && eq_commodity b y
                   | _, _ => false end). clearbody f.
  induction 1 as [|x l l' P IH|x y l|l l' l'' P1 IH1 P2 IH2]; cbn [filter].
  - constructor.
  - destruct (f x); auto.
  - destruct (f x), (f y); auto. apply perm_swap.
  - etransitivity; eauto.
Qed.
Lemma resolve_latest find ps db' ps' a b p r : resolve_prices find ps db' ps' ->
  pair_prices db' a b = p :: r ->
  In p (recorded find ps a b) /\ forall q, In q (recorded find ps a b) -> p_time q <= p_time p.
Proof. intros R E. eapply sorted_head_latest; eauto. apply resolve_prices_pairs with (1 := R). Qed.
Lemma resolve_order_independent find ps qs db1 db2 ps1 ps2 a b p r q s : Permutation ps qs ->
  resolve_prices find ps db1 ps1 -> resolve_prices find qs db2 ps2 ->
  pair_prices db1 a b = p :: r -> pair_prices db2 a b = q :: s ->
  p_time p = p_time q /\
  ((forall x y, In x (recorded find ps a b) -> In y (recorded find ps a b) -> p_time x = p_time y -> x = y) -> p = q).
Proof.
  intros P R1 R2 E1 E2.
  destruct (resolve_latest _ _ _ _ _ _ _ _ R1 E1) as [I1 M1].
  destruct (resolve_latest _ _ _ _ _ _ _ _ R2 E2) as [I2 M2].
  pose proof (recorded_perm find _ _ a b P) as RP.
  assert (In q (recorded find ps a b)) as I2' by (eapply Permutation_in; [apply Permutation_sym|]; eauto).
  assert (In p (recorded find qs a b)) as I1' by (eapply Permutation_in; eauto).
  assert (p_time p = p_time q) by (specialize (M1 _ I2'); specialize (M2 _ I1'); lia).
  split; auto.
Qed.
Lemma resolve_global find ps db' ps' : resolve_prices find ps db' ps' ->
  Permutation ps ps' /\ StronglySorted (fun a b => p_time a <= p_time b) ps'.
Proof.
  intros (db & _ & _ & P & S). split; auto. clear P.
  induction S as [|x l Hs IH Hf]; constructor; auto.
  eapply Forall_impl; [|exact Hf]. intros y Hy. cbv beta in Hy. lia.
Qed.

(** what AddPrice builds is well formed *)
Lemma assoc_upd_keys {A} k (f : option A -> A) l : NoDup (map fst l) -> NoDup (map fst (assoc_upd k f l)).
Proof.
  assert (forall r x, In x (map fst (assoc_upd k f r)) -> x = k \/ In x (map fst r)) as K.
  { induction r as [|[k' v] r IH]; cbn [assoc_upd map]; intros x.
    - intros [<-|[]]; auto.
    - destruct (eq_commodity k k'); cbn [map In fst]; intros [E|I]; auto. destruct (IH _ I); auto. }
  induction l as [|[k' v] r IH]; cbn [assoc_upd map]; intros N.
  - repeat constructor; auto.
  - inversion N as [|? ? N1 N2]; subst. destruct (eq_commodity k k') eqn:E; cbn [map fst]; constructor; auto.
    intros I. apply eq_commodity_neq in E. destruct (K _ _ I); [congruence|auto].
Qed.
Lemma assoc_upd_in {A} k (f : option A -> A) l x v : NoDup (map fst l) ->
  In (x, v) (assoc_upd k f l) -> (x = k /\ v = f (assoc k l)) \/ In (x, v) l.
Proof.
  intros N I. pose proof (assoc_upd_keys k f l N) as N'.
  apply (assoc_nodup _ _ _ N') in I. destruct (commodity_dec x k) as [->|D].
  - rewrite assoc_upd_same in I. injection I as <-. auto.
  - rewrite assoc_upd_other in I by auto. right. apply assoc_in. auto.
Qed.
Lemma add_price_ok db c cur p : db_ok db -> (c_dec (a_com (p_value p)) <= 50)%nat -> db_ok (add_price db c cur p).
Proof.
  intros [N H] D. split; [apply assoc_upd_keys; auto|]. intros a m I.
  unfold add_price in I. apply assoc_upd_in in I; auto. destruct I as [[-> ->]|I]; [|exact (H _ _ I)].
  assert (NoDup (map fst (match assoc c db with Some m => m | None => [] end)) /\
          forall b ps, In (b, ps) (match assoc c db with Some m => m | None => [] end) ->
            ps <> [] /\ Forall (fun p => (c_dec (a_com (p_value p)) <= 50)%nat) ps) as [N2 H2].
  { destruct (assoc c db) as [m|] eqn:E; [exact (H _ _ (assoc_in _ _ _ E))|]. split; [constructor|contradiction]. }
  split; [apply assoc_upd_keys; auto|]. intros b ps I. apply assoc_upd_in in I; auto.
  destruct I as [[-> ->]|I]; [|exact (H2 _ _ I)].
  destruct (assoc cur _) as [l|] eqn:E.
  - apply assoc_in in E. destruct (H2 _ _ E). split; [destruct l; discriminate|]. apply Forall_app; auto.
  - split; [discriminate|]. constructor; [exact D|constructor].
Qed.
Lemma add_prices_ok find ps : Forall (fun p => (c_dec (a_com (p_value p)) <= 50)%nat) ps ->
  forall db db', db_ok db -> add_prices find ps db = Ok db' -> db_ok db'.
Proof.
  induction 1 as [|p r Hp Hr IH]; intros db db' Hdb H; cbn [add_prices] in H.
  - injection H as <-. auto.
  - unfold must_find_commodity in H.
    destruct (find (p_com_id p)) as [c|]; [|discriminate].
    destruct (find (p_cur_id p)) as [cur|]; [|discriminate]. cbn [bind] in H.
    eapply IH; [|eauto]. apply add_price_ok; auto.
Qed.
Lemma forall2_fst {A B} (R : A -> B -> Prop) (l : list (commodity * A)) (l' : list (commodity * B)) :
  Forall2 (fun x x' => fst x = fst x' /\ R (snd x) (snd x')) l l' -> map fst l = map fst l'.
Proof. induction 1 as [|? ? ? ? [E _] _ IH]; cbn; auto. rewrite E, IH. reflexivity. Qed.
Lemma forall2_in_r {A B} (R : A -> B -> Prop) l l' y : Forall2 R l l' -> In y l' -> exists x, In x l /\ R x y.
Proof. induction 1; intros [].
  - subst. eexists; split; [left; reflexivity|auto].
  - destruct IHForall2 as (z & ? & ?); auto. exists z; split; [right|]; auto.
Qed.
Lemma resolve_db_ok find ps db' ps' : Forall (fun p => (c_dec (a_com (p_value p)) <= 50)%nat) ps ->
  resolve_prices find ps db' ps' -> db_ok db'.
Proof.
  intros D (db & A & F & _). assert (db_ok db) as [N H].
  { eapply add_prices_ok; eauto. split; [constructor|contradiction]. }
  split.
  - rewrite <- (@forall2_fst pmap pmap _ _ _ F). auto.
  - intros a m' I. destruct (forall2_in_r _ _ _ _ F I) as ([a1 m] & I1 & E & F2). cbn in E, F2. subst a1.
    destruct (H _ _ I1) as [N2 H2]. split.
    + rewrite <- (forall2_fst _ _ _ F2). auto.
    + intros b ps0 I2. destruct (forall2_in_r _ _ _ _ F2 I2) as ([b1 l] & I3 & E & P & _). cbn in E, P. subst b1.
      destruct (H2 _ _ I3) as [NE FA]. split.
      * intros ->. apply Permutation_sym, Permutation_nil in P. auto.
      * eapply Permutation_Forall; eauto.
Qed.
