(** The transactions of a loaded database, in their order, as those of the files. *)
From Coq Require Import Permutation Sorted.
From Verif Require Import Base M_Amount M_Convert M_Date M_Names M_Tags M_Parser M_Writer M_Ledger M_Report M_Database M_Output M_Listing M_Coin M_Lists
  S_Decimal S_Amount S_Names S_Books S_Report S_Database S_Output S_Coin S_Listing S_Lists L_Dec L_Sort L_Amount L_Tree L_Tree2 L_Balance L_Registers L_Resolve L_Load L_Recheck L_Database L_Database2 L_Ofx L_Listing L_Listing2 L_Listing3 L_Output L_Output2 L_Entries L_Report L_Coin L_Coin2
  Properties_Names Properties_Ledger Properties_Tree Properties_Report Properties_Database Properties_Listing.
Local Open Scope Z_scope.

Lemma insert_Forall2 {A C} (R : A -> C -> Prop) (la : A -> A -> bool) (lc : C -> C -> bool) x y l m :
  (forall a b a' b', R a a' -> R b b' -> la a b = lc a' b') -> R x y -> Forall2 R l m -> Forall2 R (insert_by la x l) (insert_by lc y m).
Proof.
  intros H Hx F. induction F as [|a b l m Hab F IH]; cbn [insert_by]; [constructor; [exact Hx|constructor]|].
  rewrite (H _ _ _ _ Hab Hx). destruct (lc b y); constructor; auto.
Qed.
Lemma sort_Forall2 {A C} (R : A -> C -> Prop) (la : A -> A -> bool) (lc : C -> C -> bool) l m :
  (forall a b a' b', R a a' -> R b b' -> la a b = lc a' b') -> Forall2 R l m -> Forall2 R (stable_sort la l) (stable_sort lc m).
Proof. intros H F. induction F as [|a b l m Hab F IH]; cbn [stable_sort]; [constructor|]. apply insert_Forall2; assumption. Qed.
Lemma filter_Forall2 {A C} (R : A -> C -> Prop) (f : A -> bool) (g : C -> bool) l m :
  (forall a b, R a b -> f a = g b) -> Forall2 R l m -> Forall2 R (filter f l) (filter g m).
Proof. intros H F. induction F as [|a b l m Hab F IH]; cbn [filter]; [constructor|]. rewrite (H _ _ Hab). destruct (g b); [constructor|]; assumption. Qed.
Lemma Forall2_map_l {A C D} (R : A -> C -> Prop) (f : D -> A) l m : Forall2 R (map f l) m <-> Forall2 (fun d c => R (f d) c) l m.
Proof.
  split.
  - revert m. induction l as [|d l IH]; intros m F; cbn [map] in F; inversion F; subst; constructor; auto.
  - induction 1; cbn [map]; constructor; auto.
Qed.

(** the order on the transactions of the files *)
Definition said_less (v u : bytes * transaction) : bool :=
  (t_posted (snd v) <? t_posted (snd u)) || ((t_posted (snd v) =? t_posted (snd u)) && negb (asserting (snd v)) && asserting (snd u)).
Lemma said_weak : weak_order said_less.
Proof.
  unfold weak_order, said_less. split.
  - intros a b H. destruct (asserting (snd a)), (asserting (snd b)); lia.
  - intros a b c H1 H2. destruct (asserting (snd a)), (asserting (snd b)), (asserting (snd c)); lia.
Qed.
Lemma sorted_as_loaded l : ordered_as_loaded l (stable_sort said_less l).
Proof.
  split; [apply Permutation_sym, stable_sort_perm|]. split.
  - pose proof (stable_sort_sorted said_less l said_weak) as S. unfold sorted_by in S.
    induction S as [|x r S IH F]; constructor; [exact IH|]. eapply Forall_impl; [|exact F]. cbv beta. intros y Hy.
    unfold said_less in Hy. destruct (asserting (snd x)), (asserting (snd y));
      (destruct (Z.eq_dec (t_posted (snd x)) (t_posted (snd y))); [right; split; [assumption|]; intros G; auto; try discriminate; lia|left; lia]).
  - intros d a. apply stable_sort_stable. intros x y _ _ H1 H2. unfold said_less. apply andb_true_iff in H1 as [H1 K1], H2 as [H2 K2].
    apply Bool.eqb_prop in K1, K2. rewrite K1, K2. destruct a; lia.
Qed.
Lemma resolved_asserting find comm conv L t x : resolved find comm conv L t x -> has_assertions L x = asserting t.
Proof.
  intros (_ & _ & _ & _ & F & _). unfold has_assertions, asserting. induction F as [|s p ss ps R F IH]; [reflexivity|]. cbn [existsb]. rewrite IH.
  destruct R as (_ & _ & _ & _ & _ & _ & ->). reflexivity.
Qed.
(** what a loaded database is, transaction by transaction in the order of Transactions *)
Lemma loaded_order limit w DB compile fuel comm b es : load_all limit w DB compile fuel comm b -> all_entries w [] (database_files w DB) es ->
  let find := must_find_account compile (b_names b) in
  exists o o3 ts, order_ok o /\ NoDup o3 /\
    load_transactions find comm (book_conv (b_prices b) o) o3 true empty_ledger (map snd (ev_txs es)) = Ok (b_ledger b, b_warned b, b_txs b) /\
    ordered_as_loaded (ev_txs es) ts /\
    Forall2 (fun v x => resolved find comm (book_conv (b_prices b) o) (b_ledger b) (snd v) x) ts (b_txs b) /\
    (forall n a, find n = Ok a -> In a (b_names b)).
Proof.
  intros (d & Hl & prices' & known0 & o1 & o2 & o3 & o & Rp & Pk & P1 & P2 & P3 & Ra & Ck & Ho & Rt & Eb) Hes find.
  rewrite load_files_list in Hl. destruct (C76_in_place _ _ _ _ Hl) as (es' & A1 & A2 & A3). assert (es' = es) by (eapply C76_unique; eassumption). subst es'.
  destruct (holds_names d es A3) as [Nn In_].
  assert (Eall := proj1 (resolve_any _ fuel _ _ _ _ _ _ Nn Pk P1 P2 Ra)).
  assert (P1' : Permutation o1 (with_parents known0 (base_accounts (map fst (d_accounts d))))) by (rewrite <- Eall; exact P1).
  assert (P2' : Permutation o2 (with_parents known0 (base_accounts (map fst (d_accounts d))))) by (rewrite <- Eall; exact P2).
  destruct (C38_account_tree _ known0 o1 o2 Nn Pk P1' P2') as (T & reached & N1 & K). destruct (K N1 (le_n _)) as (_ & Na & _). clear K T reached.
  rewrite <- Eall in Na.
  assert (Na3 : NoDup o3) by (eapply Permutation_NoDup; [apply Permutation_sym, P3|exact Na]).
  assert (Hld : load_transactions find comm (book_conv (b_prices b) o) o3 true empty_ledger (map snd (ev_txs es)) = Ok (b_ledger b, b_warned b, b_txs b)).
  { unfold load_transactions. destruct A3 as (<- & _). exact Rt. }
  destruct (load_inv _ _ _ _ _ _ _ _ _ _ empty_ok Na3 Hld) as (_ & xs & n & _ & Es & _ & _ & R & _).
  exists o, o3, (stable_sort said_less (ev_txs es)). split; [exact Ho|]. split; [exact Na3|]. split; [exact Hld|]. split; [apply sorted_as_loaded|]. split.
  - rewrite Es. apply sort_Forall2; [|apply Forall2_map_l, R].
    intros v u x y Rx Ry. unfold said_less, tx_less. rewrite (resolved_asserting _ _ _ _ _ _ Rx), (resolved_asserting _ _ _ _ _ _ Ry).
    destruct Rx as (-> & _), Ry as (-> & _). reflexivity.
  - intros m a Hn. destruct (C32_account_pattern_partial compile (b_names b) m) as (_ & K2 & _). destruct (K2 a Hn) as [I _]. exact I.
Qed.
(** at most one list is ordered as loaded *)
Lemma as_loaded_unique l ts ts' : ordered_as_loaded l ts -> ordered_as_loaded l ts' -> ts = ts'.
Proof.
  assert (G : forall t t' : list (bytes * transaction), let R := fun v u => t_posted (snd v) < t_posted (snd u) \/ (t_posted (snd v) = t_posted (snd u) /\ (asserting (snd v) = true -> asserting (snd u) = true)) in
    StronglySorted R t -> StronglySorted R t' -> (forall d (a : bool), filter (fun v => (t_posted (snd v) =? d) && Bool.eqb (asserting (snd v)) a) t = filter (fun v => (t_posted (snd v) =? d) && Bool.eqb (asserting (snd v)) a) t') -> t = t').
  { intros t t' R S. revert t'. induction S as [|v t S IH F]; intros t' S' E.
    - destruct t' as [|u t']; [reflexivity|]. specialize (E (t_posted (snd u)) (asserting (snd u))). cbn [filter] in E. rewrite Z.eqb_refl, Bool.eqb_reflx in E. discriminate.
    - destruct S' as [|u t' S' F'].
      { specialize (E (t_posted (snd v)) (asserting (snd v))). cbn [filter] in E. rewrite Z.eqb_refl, Bool.eqb_reflx in E. discriminate. }
      assert (In1 : In u (v :: t)). { specialize (E (t_posted (snd u)) (asserting (snd u))). assert (I : In u (filter (fun v => (t_posted (snd v) =? t_posted (snd u)) && Bool.eqb (asserting (snd v)) (asserting (snd u))) (u :: t'))).
        { apply filter_In. split; [left; reflexivity|]. rewrite Z.eqb_refl, Bool.eqb_reflx. reflexivity. } rewrite <- E in I. apply filter_In in I. apply I. }
      assert (In2 : In v (u :: t')). { specialize (E (t_posted (snd v)) (asserting (snd v))). assert (I : In v (filter (fun u => (t_posted (snd u) =? t_posted (snd v)) && Bool.eqb (asserting (snd u)) (asserting (snd v))) (v :: t))).
        { apply filter_In. split; [left; reflexivity|]. rewrite Z.eqb_refl, Bool.eqb_reflx. reflexivity. } rewrite E in I. apply filter_In in I. apply I. }
      rewrite Forall_forall in F, F'.
      assert (D : t_posted (snd v) = t_posted (snd u) /\ asserting (snd v) = asserting (snd u)).
      { destruct In1 as [->|I1]; [auto|]. destruct In2 as [->|I2]; [auto|]. specialize (F u I1). specialize (F' v I2). unfold R in F, F'.
        destruct (asserting (snd v)), (asserting (snd u)); intuition; try lia. }
      destruct D as [D1 D2]. pose proof (E (t_posted (snd v)) (asserting (snd v))) as E0. cbn [filter] in E0. rewrite <- D1, <- D2, Z.eqb_refl, Bool.eqb_reflx in E0. cbn [andb] in E0.
      injection E0 as E0 _. subst u. f_equal. apply IH; [exact S'|]. intros d a. specialize (E d a). cbn [filter] in E. destruct (_ && _); [injection E as E|]; exact E. }
  intros (_ & S & F) (_ & S' & F'). apply G; auto. intros d a. rewrite F, F'. reflexivity.
Qed.

(** ** Tags *)
Lemma tag_visits_ok o_tx o_post L xs : (forall i l, Permutation l (o_tx i l)) -> (forall p l, Permutation l (o_post p l)) ->
  visits L xs (tag_visits o_tx o_post L xs).
Proof.
  intros H1 H2. unfold visits, tag_visits. generalize 0%nat. induction xs as [|x xs IH]; intros k; cbn [List.length seq combine map]; constructor; [|apply IH].
  cbn [fst snd v_tags v_posts]. split; [apply H1|]. generalize (x_posts x). intros ps. induction ps as [|p ps IHp]; cbn [map]; constructor; [|exact IHp].
  cbn [fst snd]. split; [apply H2|reflexivity].
Qed.
Lemma said_posts {find : bytes -> res bytes} {comm conv L t x} : resolved find comm conv L t x ->
  Forall2 (fun s p => rp_notes (heap L p) = ps_notes s /\ rp_acc (heap L p) = account_of find s) (t_postings t) (x_posts x).
Proof.
  intros (_ & _ & _ & _ & F & _). eapply Forall2_impl'; [|exact F]. intros s p (_ & _ & E & N & _). split; [exact N|]. unfold account_of. rewrite E. reflexivity.
Qed.
Lemma tagged_said find comm conv L ts xs k v : Forall2 (resolved find comm conv L) ts xs -> (tagged L xs k v <-> tag_said ts k v).
Proof.
  intros F. unfold tagged, tag_said. induction F as [|t x ts xs R F IH]; [split; intros (y & [] & _)|].
  assert (E : tx_tags x = parse_tags (t_notes t)) by (unfold tx_tags; destruct R as (_ & _ & _ & -> & _); reflexivity).
  assert (P : (exists p, In p (x_posts x) /\ In (k, v) (post_tags L p)) <-> (exists s, In s (t_postings t) /\ In (k, v) (parse_tags (ps_notes s)))).
  { pose proof (said_posts R) as G. clear -G. induction G as [|s p ss ps (N & _) G IH]; [split; intros (y & [] & _)|]. unfold post_tags in IH |- *. split.
    - intros (q & [<- |I] & K); [exists s; split; [left; reflexivity|]; rewrite <- N; exact K|]. destruct (proj1 IH) as (s' & I' & K'); [exists q; auto|]. exists s'. split; [right; exact I'|exact K'].
    - intros (q & [<- |I] & K); [exists p; split; [left; reflexivity|]; rewrite N; exact K|]. destruct (proj2 IH) as (s' & I' & K'); [exists q; auto|]. exists s'. split; [right; exact I'|exact K']. }
  split.
  - intros (y & [<- |I] & K).
    + exists t. split; [left; reflexivity|]. rewrite <- E. destruct K as [K|K]; [left; exact K|right; apply P, K].
    + destruct (proj1 IH) as (u & Iu & K'); [exists y; auto|]. exists u. split; [right; exact Iu|exact K'].
  - intros (y & [<- |I] & K).
    + exists x. split; [left; reflexivity|]. rewrite E. destruct K as [K|K]; [left; exact K|right; apply P, K].
    + destruct (proj2 IH) as (u & Iu & K'); [exists y; auto|]. exists u. split; [right; exact Iu|exact K'].
Qed.
Lemma uses_said find comm conv L ts xs k : Forall2 (resolved find comm conv L) ts xs -> uses L xs k = accounts_said find ts k.
Proof.
  intros F. unfold uses, accounts_said. induction F as [|t x ts xs R F IH]; [reflexivity|]. cbn [flat_map]. rewrite IH. f_equal.
  assert (E : tx_tags x = parse_tags (t_notes t)) by (unfold tx_tags; destruct R as (_ & _ & _ & -> & _); reflexivity).
  rewrite E. unfold has_key. pose proof (said_posts R) as G. f_equal.
  - clear -G. induction G as [|s p ss ps (N & A) G IH]; [reflexivity|]. cbn [flat_map]. rewrite IH. unfold post_tags. rewrite N, A. reflexivity.
  - destruct (existsb _ _); [|reflexivity]. clear -G. induction G as [|s p ss ps (N & A) G IH]; [reflexivity|]. cbn [map]. rewrite IH, A. reflexivity.
Qed.

(** ** Stats *)
Lemma eqb_bytes_sym a b : eqb_bytes a b = eqb_bytes b a.
Proof. destruct (eqb_bytes a b) eqn:E, (eqb_bytes b a) eqn:F; try reflexivity; [apply eqb_bytes_eq in E|apply eqb_bytes_eq in F]; subst; rewrite eqb_bytes_refl in *; discriminate. Qed.
Lemma texts_map {A} (f : A -> res bytes) l : (do r <- res_map f l; Ok (concat r)) = texts (map f l).
Proof.
  induction l as [|x l IH]; [reflexivity|]. cbn [res_map map texts]. rewrite <- IH. destruct (f x); [|reflexivity|reflexivity]. cbn [bind].
  destruct (res_map f l); reflexivity.
Qed.
Section Stats.
Context (find : bytes -> res bytes) (comm : bytes -> commodity) (conv : conversion) (L : ledger).
Definition said_as (v : bytes * transaction) (x : rtx) : Prop := resolved find comm conv L (snd v) x /\ in_account_commodity find comm (snd v).
Lemma said_values v x : said_as v x -> Forall2 (fun s p => rp_acc (heap L p) = account_of find s /\ rp_notes (heap L p) = ps_notes s /\
    rp_qty (heap L p) = Some (mkAmount (value_of (snd v) s) (comm (account_of find s))) /\ (if rp_asserted (heap L p) then rp_bal (heap L p) else None) = ps_balance s)
  (t_postings (snd v)) (x_posts x).
Proof.
  intros (R & Q). pose proof (value_resolved _ _ _ _ _ _ R Q) as V. pose proof (said_posts R) as G. destruct R as (_ & _ & _ & _ & F & _). revert V G F.
  generalize (value_of (snd v)). intros f V G F. induction F as [|s p ss ps Rs F IH]; [constructor|]. inversion V as [|? ? ? ? V1 V2]; inversion G as [|? ? ? ? (N & A) G2]; subst.
  constructor; [|apply IH; assumption]. split; [exact A|]. split; [exact N|]. split; [rewrite V1, A; reflexivity|].
  destruct Rs as (_ & _ & _ & _ & _ & Hb & ->). destruct (ps_balance s) as [b|] eqn:E; [apply Hb; reflexivity|reflexivity].
Qed.
Lemma printed_said v x : said_as v x -> tx_string comm L x = printed find comm (snd v).
Proof.
  intros H. unfold tx_string, printed, write_transaction, as_written, filled. cbn [t_posted t_code t_desc t_notes t_postings].
  pose proof (said_values v x H) as F. destruct H as ((-> & -> & -> & -> & _) & _).
  match goal with |- context [map ?f (x_posts x)] => match goal with |- context [map ?g (t_postings (snd v))] => assert (E : map f (x_posts x) = map g (t_postings (snd v))) end end.
  { clear -F. revert F. generalize (value_of (snd v)). intros f F. induction F as [|s p ss ps (A & N & Q & Bl) F IH]; [reflexivity|]. cbn [map]. rewrite IH, A, N, Q, Bl. reflexivity. }
  cbv zeta in E |- *. rewrite E. reflexivity.
Qed.
Lemma equal_said v x u y : said_as v x -> said_as u y -> tx_equal L x y = Ok (looks_same find (snd v) (snd u)).
Proof.
  intros H K. pose proof (said_values v x H) as F. pose proof (said_values u y K) as G. destruct H as ((E1 & E2 & _) & _), K as ((E3 & E4 & _) & _).
  unfold tx_equal, looks_same. rewrite E1, E2, E3, E4. destruct (_ =? _); cbn [negb andb]; [|reflexivity]. destruct (eqb_bytes _ _); cbn [negb andb]; [|reflexivity].
  assert (X : forall ss ps rs qs,
     Forall2 (fun s p => rp_acc (heap L p) = account_of find s /\ rp_qty (heap L p) = Some (mkAmount (value_of (snd v) s) (comm (account_of find s)))) ss ps ->
     Forall2 (fun s p => rp_acc (heap L p) = account_of find s /\ rp_qty (heap L p) = Some (mkAmount (value_of (snd u) s) (comm (account_of find s)))) rs qs ->
     (if negb (List.length ps =? List.length qs)%nat then Ok false else postings_equal L ps qs) = Ok (same_postings find (snd v) (snd u) ss rs)).
  { clear. intros ss ps rs qs F. revert rs qs. induction F as [|s p ss ps (A & Q) F IH]; intros rs qs G; destruct G as [|r q rs qs (A' & Q') G]; try reflexivity.
    specialize (IH rs qs G). cbn [List.length Nat.eqb postings_equal same_postings]. destruct (_ =? _)%nat; cbn [negb] in IH |- *.
    - unfold posting_equal. rewrite A, A', Q, Q'. rewrite (eqb_bytes_sym (account_of find r)). destruct (eqb_bytes (account_of find s) (account_of find r)) eqn:E; [|reflexivity].
      apply eqb_bytes_eq in E. rewrite E. rewrite is_equal_scale by reflexivity. cbn [a_int bind andb]. rewrite Z.eqb_sym. destruct (_ =? _); [exact IH|reflexivity].
    - injection IH as <-. rewrite andb_false_r. reflexivity. }
  apply X.
  - eapply Forall2_impl'; [|exact F]. intros s p (A & _ & Q & _). auto.
  - eapply Forall2_impl'; [|exact G]. intros s p (A & _ & Q & _). auto.
Qed.
(** the numbers of different commodities *)
Lemma is_equal_number x c y e : (c_dec c <= 50)%nat -> (c_dec e <= 50)%nat ->
  is_equal (mkAmount x c) (mkAmount y e) = Ok (same_number (c_dec c) x (c_dec e) y).
Proof.
  intros Hc He. unfold is_equal, cmp, adjusted_to, same_number, a_dec. cbn [a_com a_int].
  assert (P : forall n, (n <= 50)%nat -> big_pow10 n = Ok (10 ^ Z.of_nat n)). { intros n Hn. destruct (big_pow10_cases n) as [(_ & ->)|(H & _)]; [reflexivity|lia]. }
  assert (C : forall a b, match a ?= b with Eq => true | _ => false end = (a =? b)) by (intros a b; unfold Z.eqb, Z.compare; destruct a, b; try reflexivity; rewrite Pos.eqb_compare; [|rewrite <- Pos.compare_antisym; rewrite Pos.compare_antisym]; destruct (_ ?= _)%positive; reflexivity).
  destruct (Nat.ltb_spec (c_dec e) (c_dec c)); [|destruct (Nat.ltb_spec (c_dec c) (c_dec e))].
  - rewrite P by lia. cbn [bind]. rewrite C. replace (c_dec e <=? c_dec c)%nat with true by (symmetry; apply Nat.leb_le; lia). reflexivity.
  - rewrite P by lia. cbn [bind]. rewrite C. replace (c_dec e <=? c_dec c)%nat with false by (symmetry; apply Nat.leb_gt; lia). reflexivity.
  - cbn [bind]. rewrite C. replace (c_dec e <=? c_dec c)%nat with true by (symmetry; apply Nat.leb_le; lia). replace (c_dec c - c_dec e)%nat with 0%nat by lia. rewrite Z.mul_1_r. reflexivity.
Qed.
Lemma mismatch_said v x : said_as v x -> (forall s, In s (t_postings (snd v)) -> (c_dec (comm (account_of find s)) <= 50)%nat) ->
  mismatch L x = Ok (converts_badly find comm (snd v)).
Proof.
  intros H D. pose proof (said_values v x H) as F. unfold mismatch, converts_badly. revert D.
  destruct F as [|s1 p1 ss ps (A1 & _ & Q1 & _) F]; [reflexivity|]. destruct F as [|s2 p2 ss ps (A2 & _ & Q2 & _) F]; [reflexivity|]. destruct F; [|reflexivity]. intros D.
  rewrite Q1, Q2. unfold negated. cbn [a_int a_com]. rewrite is_equal_number by (apply D; cbn; auto). reflexivity.
Qed.
Lemma conversion_said loc v x : said_as v x -> loc x = location v -> converts_badly find comm (snd v) = true -> item_text comm loc L (BadConversion x) = conversion_text find comm v.
Proof.
  intros H El Hb. pose proof (said_values v x H) as F. cbn [item_text]. unfold conversion_text, converts_badly in *. destruct H as ((-> & _) & _). rewrite El.
  destruct F as [|s1 p1 ss ps (A1 & _ & Q1 & _) F]; [discriminate|]. destruct F as [|s2 p2 ss ps (A2 & _ & Q2 & _) F]; [discriminate|].
  rewrite Q1, Q2. reflexivity.
Qed.
End Stats.
Lemma res_map_app {A C} (f : A -> res C) l m : res_map f (l ++ m) = do a <- res_map f l; do b <- res_map f m; Ok (a ++ b).
Proof.
  induction l as [|x l IH]; [cbn [app res_map bind]; destruct (res_map f m); reflexivity|]. cbn [app res_map]. rewrite IH. destruct (f x); [|reflexivity|reflexivity]. cbn [bind].
  destruct (res_map f l); [|reflexivity|reflexivity]. cbn [bind]. destruct (res_map f m); reflexivity.
Qed.
Lemma nth_Forall2 {A C} (R : A -> C -> Prop) l m da dc i : Forall2 R l m -> (i < List.length m)%nat -> R (nth i l da) (nth i m dc).
Proof. intros F. revert i. induction F as [|a c l m H F IH]; intros [|i] Hi; cbn [List.length nth] in *; try lia; [exact H|apply IH; lia]. Qed.
Lemma findings_said find comm conv L loc (fu fc : bool) v x : said_as find comm conv L v x -> loc x = location v ->
  (forall s, In s (t_postings (snd v)) -> (c_dec (comm (account_of find s)) <= 50)%nat) ->
  map (item_text comm loc L) ((if fc && mis L x then [BadConversion x] else []) ++ flat_map (fun p => if fu && eqb_bytes (rp_acc (heap L p)) unbalanced then [UnbalancedTx x] else []) (x_posts x))
  = findings find comm fu fc v.
Proof.
  intros H El D. unfold findings. rewrite map_app. f_equal.
  - unfold mis. rewrite (mismatch_said _ _ _ _ _ _ H D). destruct fc; [|reflexivity]. cbn [andb]. destruct (converts_badly find comm (snd v)) eqn:E; [|reflexivity].
    cbn [map]. apply (f_equal (fun z => [z])). exact (conversion_said _ _ _ _ _ _ _ H El E).
  - pose proof (printed_said _ _ _ _ _ _ H) as P. unfold unbalanced_text. rewrite <- P, <- El. pose proof (said_values _ _ _ _ _ _ H) as F. clear D. revert F.
    generalize (value_of (snd v)). intros f F. induction F as [|s p ss ps (A & _) F IH]; [reflexivity|]. cbn [flat_map]. rewrite map_app, IH, A. f_equal.
    change (B "Unbalanced") with unbalanced. destruct (fu && eqb_bytes (account_of find s) unbalanced); [cbn [map item_text]; reflexivity|reflexivity].
Qed.

(** ** Accounts *)
Lemma bound_incl l m : (forall x, In x l -> In x m) -> (bound l <= bound m)%nat.
Proof.
  intros H. unfold bound. apply le_n_S. apply list_max_le. apply Forall_forall. intros k I. apply in_map_iff in I as (x & <- & I).
  pose proof (proj1 (list_max_le (map (@List.length ascii) m) _) (le_n _)) as K. rewrite Forall_forall in K. apply K, in_map, H, I.
Qed.
Lemma last_colon (p q l m : bytes) : p ++ ":"%char :: l = q ++ ":"%char :: m -> ~ In ":"%char l -> ~ In ":"%char m -> p = q.
Proof.
  revert q. induction p as [|a p IH]; intros [|b q] E Hl Hm; cbn [app] in E; try reflexivity.
  - injection E as <- E. exfalso. apply Hl. rewrite E. apply in_app_iff. right. left. reflexivity.
  - injection E as -> E. exfalso. apply Hm. rewrite <- E. apply in_app_iff. right. left. reflexivity.
  - injection E as -> E. f_equal. exact (IH q E Hl Hm).
Qed.
Lemma parent_of_unique n p q : parent_of n p -> parent_of n q -> p = q.
Proof.
  assert (X : forall n p, (exists leaf : list ascii, n = p ++ B ":" ++ leaf /\ ~ In ":"%char leaf /\ p <> []) -> In ":"%char n /\ ~ exists leaf : list ascii, n = B ":" ++ leaf /\ ~ In ":"%char leaf).
  { clear. intros n p (l & -> & Hl & Hp). split; [apply in_app_iff; right; left; reflexivity|]. intros (m & E & Hm). destruct p as [|a p]; [congruence|]. cbn in E. injection E as -> E. apply Hm. rewrite <- E. apply in_app_iff. right. left. reflexivity. }
  intros [H|(-> & H)] [G|(-> & G)]; [| | |reflexivity].
  - destruct H as (l & -> & Hl & _), G as (m & E & Hm & _). exact (last_colon p q l m E Hl Hm).
  - apply X in H. tauto.
  - apply X in G. tauto.
Qed.
Lemma under_said all T p n : tree_of all T -> In n all -> (under (t_parent T) p n <-> at_or_above p n).
Proof.
  intros (_ & _ & Hr & Hp & Ho & _) I. split.
  - intros U. revert I. induction U as [|c q E U IH]; intros I; [constructor|].
    destruct (list_eq_dec Ascii.ascii_dec c root) as [-> |Hc]; [congruence|]. destruct (Hp c I Hc) as (Ep & Ip). assert (q = par c) by congruence. subst q.
    apply (aa_up p c (par c) Hc (par_parent_of c)), IH, Ip.
  - intros A. revert I. induction A as [|c q Hc Hq A IH]; intros I; [constructor|].
    destruct (Hp c I Hc) as (Ep & Ip). assert (q = par c) by exact (parent_of_unique c q (par c) Hq (par_parent_of c)). subst q.
    exact (under_step _ p c (par c) Ep (IH Ip)).
Qed.
