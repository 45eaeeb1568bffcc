(** Lemmas about M_Gnucash: the accounts. *)
From Coq Require Import Permutation Sorted.
From Verif Require Import Base M_Amount M_Regex M_Date M_Parser M_Writer M_Names M_Ledger S_Books S_Decimal S_Amount S_Date S_DateText L_Dec L_Amount L_Date L_Sort L_Names
  L_Report L_Resolve L_Resolve2 M_Gnucash S_Gnucash L_Gnucash.

Lemma gnc_name_short n s : short_name n s <-> s = gnc_name n.
Proof.
  unfold short_name, gnc_name. destruct (eqb_bytes n (B "Root Account")) eqn:E.
  - apply eqb_bytes_eq in E. split; [intros [[_ H]|[H _]]; [exact H|contradiction]|intros H; left; split; assumption].
  - assert (N : n <> B "Root Account") by (intros H; apply eqb_bytes_eq in H; rewrite H in E; discriminate).
    split; [intros [[H _]|[_ H]]; [contradiction|exact H]|intros H; right; split; assumption].
Qed.
Lemma is_root_like a : is_root a = true <-> root_like a.
Proof. unfold is_root, root_like. rewrite orb_true_iff, !eqb_bytes_eq. reflexivity. Qed.
Lemma is_root_not a : is_root a = false <-> ~ root_like a.
Proof. rewrite <- is_root_like. destruct (is_root a); split; congruence. Qed.
Lemma by_guid_sound l g a : by_guid l g = Some a -> In a l /\ ga_guid a = g.
Proof.
  induction l as [|b l IH]; cbn; [discriminate|]. destruct (by_guid l g) as [c|].
  - intros [= <-]. destruct (IH eq_refl). auto.
  - destruct (eqb_bytes (ga_guid b) g) eqn:E; [|discriminate]. intros [= <-]. apply eqb_bytes_eq in E. auto.
Qed.
Lemma by_guid_complete l a : NoDup (map ga_guid l) -> In a l -> by_guid l (ga_guid a) = Some a.
Proof.
  induction l as [|b l IH]; intros N I; [destruct I|]. cbn [map] in N. inversion N as [|? ? Nb Nl]; subst. cbn. destruct I as [->|I].
  - destruct (by_guid l (ga_guid a)) as [c|] eqn:E.
    + apply by_guid_sound in E as [Ic Ec]. exfalso. apply Nb. rewrite <- Ec. apply in_map, Ic.
    + rewrite (proj2 (eqb_bytes_eq _ _) eq_refl). reflexivity.
  - rewrite IH by assumption. reflexivity.
Qed.
Lemma join_snoc (sep : bytes) ns s : ns <> [] -> join sep (ns ++ [s]) = join sep ns ++ sep ++ s.
Proof.
  induction ns as [|n ns IH]; [easy|]. intros _. destruct ns as [|m ns]; [reflexivity|].
  specialize (IH ltac:(discriminate)). change (join sep ((n :: m :: ns) ++ [s])) with (n ++ sep ++ join sep ((m :: ns) ++ [s])). rewrite IH.
  change (join sep (n :: m :: ns)) with (n ++ sep ++ join sep (m :: ns)). rewrite <- !app_assoc. reflexivity.
Qed.
Lemma path_nonnil l a ns : path l a ns -> ns <> [].
Proof. destruct 1; try discriminate. destruct ns; discriminate. Qed.

Lemma full_name_sound l : forall fuel a n, full_name fuel l a = Ok n -> exists ns, path l a ns /\ n = join (B ":") ns.
Proof.
  induction fuel as [|f IH]; intros a n H; cbn [full_name] in H; [discriminate|].
  destruct (is_root a) eqn:R.
  - injection H as <-. exists [gnc_name (ga_name a)]. split; [|reflexivity]. apply path_root; [apply is_root_like, R|apply gnc_name_short; reflexivity].
  - apply is_root_not in R. destruct (by_guid l (ga_parent a)) as [p|] eqn:E; [|discriminate]. apply by_guid_sound in E.
    destruct (is_root p) eqn:Rp.
    + injection H as <-. exists [gnc_name (ga_name a)]. split; [|reflexivity]. apply (path_top l a p); [exact R|exact E|apply is_root_like, Rp|apply gnc_name_short; reflexivity].
    + apply is_root_not in Rp. destruct (full_name f l p) as [m| |] eqn:F; cbn [bind] in H; try discriminate. injection H as <-.
      destruct (IH _ _ F) as (ns & P & ->). exists (ns ++ [gnc_name (ga_name a)]). split.
      * apply (path_below l a p); auto. apply gnc_name_short; reflexivity.
      * rewrite join_snoc by (eapply path_nonnil; eassumption). reflexivity.
Qed.
Lemma full_name_panics l : forall fuel a, full_name fuel l a <> Fail.
Proof.
  induction fuel as [|f IH]; intros a; cbn; [discriminate|]. destruct (is_root a); [discriminate|]. destruct (by_guid l (ga_parent a)) as [p|]; [|discriminate].
  destruct (is_root p); [discriminate|]. specialize (IH p). destruct (full_name f l p); cbn; congruence.
Qed.
Lemma path_det l : NoDup (map ga_guid l) -> forall a ns, path l a ns -> forall ns', path l a ns' -> ns = ns'.
Proof.
  intros N. assert (U : forall p q a, is_parent l p a -> is_parent l q a -> p = q).
  { intros p q a [Ip Ep] [Iq Eq]. pose proof (by_guid_complete l p N Ip) as H1. pose proof (by_guid_complete l q N Iq) as H2.
    rewrite Ep in H1. rewrite Eq, H1 in H2. congruence. }
  induction 1 as [a s R S|a p s R P Rp S|a p ns s R P Rp H IH S]; intros ns' H'; inversion H' as [a' s' R' S' | a' p' s' R' P' Rp' S' | a' p' ms s' R' P' Rp' Hp' S']; subst; try contradiction;
    try (apply gnc_name_short in S, S'; subst; reflexivity).
  - exfalso. apply Rp'. rewrite (U _ _ _ P' P). exact Rp.
  - exfalso. apply Rp. rewrite (U _ _ _ P P'). exact Rp'.
  - apply gnc_name_short in S, S'. subst. f_equal. apply IH. rewrite (U _ _ _ P P'). exact Hp'.
Qed.
Lemma path_chain l a ns : path l a ns -> In a l -> exists chain, List.length chain = List.length ns /\
  forall k x, nth_error chain k = Some x -> In x l /\ exists ms, path l x ms /\ List.length ms = S k.
Proof.
  induction 1 as [a s R S|a p s R P Rp S|a p ns s R P Rp H IH S]; intros I.
  - exists [a]. split; [reflexivity|]. intros [|k] x E; [|destruct k; discriminate E]. injection E as <-. split; [exact I|]. exists [s]. split; [constructor; assumption|reflexivity].
  - exists [a]. split; [reflexivity|]. intros [|k] x E; [|destruct k; discriminate E]. injection E as <-. split; [exact I|]. exists [s]. split; [eapply path_top; eassumption|reflexivity].
  - destruct (IH (proj1 P)) as (ch & L & F). exists (ch ++ [a]). split; [rewrite !app_length, L; reflexivity|].
    intros k x E. destruct (Nat.lt_ge_cases k (List.length ch)) as [K|K].
    + rewrite nth_error_app1 in E by exact K. apply F, E.
    + rewrite nth_error_app2 in E by exact K. destruct (k - List.length ch)%nat as [|j] eqn:D; [|destruct j; discriminate E]. injection E as <-.
      split; [exact I|]. exists (ns ++ [s]). split; [eapply path_below; eassumption|]. rewrite app_length. cbn. lia.
Qed.
Lemma path_short l a ns : NoDup (map ga_guid l) -> path l a ns -> In a l -> (List.length ns <= List.length l)%nat.
Proof.
  intros N P I. destruct (path_chain l a ns P I) as (ch & L & F). rewrite <- L. apply NoDup_incl_length.
  - apply NoDup_nth_error. intros i j Hi E. destruct (nth_error ch i) as [x|] eqn:Ei; [|apply nth_error_None in Ei; lia].
    destruct (F _ _ Ei) as (_ & ms & P1 & L1). destruct (F _ _ (eq_sym E)) as (_ & ms' & P2 & L2). rewrite (path_det l N _ _ P1 _ P2) in L1. lia.
  - intros x Ix. apply In_nth_error in Ix as (k & E). apply (F _ _ E).
Qed.
Lemma full_name_complete l : NoDup (map ga_guid l) -> forall a ns, path l a ns -> forall fuel, (List.length ns <= fuel)%nat ->
  full_name fuel l a = Ok (join (B ":") ns).
Proof.
  intros N. assert (G : forall p a, is_parent l p a -> by_guid l (ga_parent a) = Some p).
  { intros p a [Ip Ep]. rewrite <- Ep. apply by_guid_complete; assumption. }
  induction 1 as [a s R S|a p s R P Rp S|a p ns s R P Rp H IH S]; intros [|f] Hf; cbn [List.length] in Hf; try lia; cbn [full_name]; apply gnc_name_short in S; subst.
  - rewrite (proj2 (is_root_like a) R). reflexivity.
  - rewrite (proj2 (is_root_not a) R), (G _ _ P), (proj2 (is_root_like p) Rp). reflexivity.
  - rewrite app_length in Hf. cbn in Hf. lia.
  - rewrite app_length in Hf. cbn in Hf. rewrite (proj2 (is_root_not a) R), (G _ _ P), (proj2 (is_root_not p) Rp), IH by lia. cbn [bind].
    rewrite join_snoc by (eapply path_nonnil; eassumption). reflexivity.
Qed.

(** ** commodities *)
Lemma find_from_sound cs : forall k id i, find_from k cs id = Some i -> (k <= i)%nat /\ exists g, nth_error cs (i - k) = Some g /\ gc_id g = id.
Proof.
  induction cs as [|c cs IH]; intros k id i H; cbn in H; [discriminate|]. destruct (find_from (S k) cs id) as [j|] eqn:E.
  - injection H as <-. destruct (IH _ _ _ E) as (K & g & G & Q). split; [lia|]. exists g. replace (j - k)%nat with (S (j - S k)) by lia. auto.
  - destruct (eqb_bytes (gc_id c) id) eqn:F; [|discriminate]. injection H as <-. apply eqb_bytes_eq in F. split; [lia|]. exists c. rewrite Nat.sub_diag. auto.
Qed.
Lemma find_from_complete cs : forall k id, (exists g, In g cs /\ gc_id g = id) -> exists i, find_from k cs id = Some i.
Proof.
  induction cs as [|c cs IH]; intros k id (g & I & E); [destruct I|]. cbn. destruct (find_from (S k) cs id) as [j|] eqn:F; [eauto|].
  destruct I as [->|I]; [rewrite (proj2 (eqb_bytes_eq _ _) E); eauto|]. destruct (IH (S k) id) as (i & H); [eauto|congruence].
Qed.
Lemma log10_pow k : 0 <= k <= 18 -> set_fraction (10 ^ k) = k.
Proof.
  intros H. assert (D : k=0\/k=1\/k=2\/k=3\/k=4\/k=5\/k=6\/k=7\/k=8\/k=9\/k=10\/k=11\/k=12\/k=13\/k=14\/k=15\/k=16\/k=17\/k=18) by lia.
  repeat (destruct D as [->|D]; [vm_compute; reflexivity|]). subst. vm_compute. reflexivity.
Qed.
Lemma find_commodity_sound cs id c : find_commodity_at cs id = Some c -> book_commodity cs id c.
Proof.
  unfold find_commodity_at. destruct (find_from 0 cs id) as [i|] eqn:E; [|discriminate]. intros [= <-].
  destruct (find_from_sound _ _ _ _ E) as (_ & g & G & Q). rewrite Nat.sub_0_r in G. exists g.
  assert (X : nth i cs (mkGCommodity [] [] [] 0) = g) by (apply nth_error_nth; exact G).
  split; [eapply nth_error_In; eassumption|]. split; [exact Q|]. unfold commodity_at. cbn zeta. rewrite X. cbn [c_id c_dec]. split; [exact Q|].
  intros k K F. rewrite F, log10_pow by exact K. lia.
Qed.
Lemma find_commodity_complete cs id : (exists g, In g cs /\ gc_id g = id) -> exists c, find_commodity_at cs id = Some c.
Proof. intros H. unfold find_commodity_at. destruct (find_from_complete cs 0 id H) as (i & ->). cbn. eauto. Qed.
Lemma find_commodity_none cs id : (forall g, In g cs -> gc_id g <> id) -> find_commodity_at cs id = None.
Proof.
  intros H. unfold find_commodity_at. destruct (find_from 0 cs id) as [i|] eqn:E; [|reflexivity].
  destruct (find_from_sound _ _ _ _ E) as (_ & g & G & Q). apply nth_error_In in G. destruct (H g G Q).
Qed.

(** ** all accounts *)
Definition account_is (cs : list gcommodity) (l : list gaccount) (a : gaccount) (c : caccount) : Prop :=
  ca_guid c = ga_guid a /\ (exists ns, path l a ns /\ ca_name c = join (B ":") ns) /\
  book_commodity cs (if eqb_bytes (ga_commodity a) [] then B "CAD" else ga_commodity a) (ca_commodity c) /\
  ca_desc c = ga_desc a /\ online_ids a = Ok (ca_bank c, ca_acct c).
Lemma account_from_sound cs l a c : account_from cs l a = Ok c -> account_is cs l a c.
Proof.
  unfold account_from. destruct (eqb_bytes (ga_guid a) []); [discriminate|]. unfold default_id.
  destruct (find_commodity_at cs _) as [k|] eqn:E; [|discriminate]. destruct (online_ids a) as [[b1 b2]| |] eqn:O; cbn [bind]; try discriminate.
  destruct (full_name _ l a) as [n| |] eqn:F; cbn [bind]; try discriminate. intros [= <-].
  split; [reflexivity|]. split; [apply (full_name_sound _ _ _ _ F)|]. split; [apply find_commodity_sound, E|]. split; [reflexivity|exact O].
Qed.
Lemma res_map_forall2 {A C} (f : A -> res C) l r : res_map f l = Ok r -> Forall2 (fun x y => f x = Ok y) l r.
Proof.
  revert r. induction l as [|x l IH]; intros r H; cbn in H; [injection H as <-; constructor|].
  destruct (f x) as [y| |] eqn:E; cbn [bind] in H; try discriminate. destruct (res_map f l) as [ys| |] eqn:F; cbn [bind] in H; try discriminate.
  injection H as <-. constructor; auto.
Qed.
Lemma res_map_total {A C} (f : A -> res C) l : (forall x, In x l -> exists y, f x = Ok y) -> exists r, res_map f l = Ok r.
Proof.
  induction l as [|x l IH]; intros H; cbn; [eauto|]. destruct (H x (or_introl eq_refl)) as (y & ->). cbn [bind].
  destruct IH as (r & ->); [intros z Hz; apply H; right; exact Hz|]. cbn. eauto.
Qed.
Lemma resolve_gaccounts_sound cs l acs : resolve_gaccounts cs l = Ok acs -> Forall2 (account_is cs l) l acs.
Proof.
  unfold resolve_gaccounts. destruct (forallb _ l); [|discriminate]. intros H. apply res_map_forall2 in H.
  clear -H. revert H. generalize l at 1 3. intros l0. induction 1; constructor; auto. apply account_from_sound; assumption.
Qed.
Lemma resolve_gaccounts_complete cs l : NoDup (map ga_guid l) ->
  (forall a, In a l -> ga_guid a <> [] /\ (exists ns, path l a ns) /\ (exists ids, online_ids a = Ok ids) /\
     (ga_parent a = [] \/ exists p, is_parent l p a) /\
     exists g, In g cs /\ gc_id g = (if eqb_bytes (ga_commodity a) [] then B "CAD" else ga_commodity a)) ->
  exists acs, resolve_gaccounts cs l = Ok acs.
Proof.
  intros N H. unfold resolve_gaccounts.
  match goal with |- context [forallb ?f l] => assert (E : forallb f l = true) end.
  { apply forallb_forall. intros a I. destruct (H a I) as (_ & _ & _ & [P|(p & [Ip Ep])] & _).
    - rewrite P. reflexivity.
    - rewrite <- Ep, (by_guid_complete l p N Ip). apply orb_true_r. }
  rewrite E. apply res_map_total. intros a I. destruct (H a I) as (G & (ns & P) & (ids & O) & _ & C). unfold account_from.
  destruct (eqb_bytes (ga_guid a) []) eqn:Q; [apply eqb_bytes_eq in Q; contradiction|]. unfold default_id.
  destruct (find_commodity_complete _ _ C) as (c & ->). rewrite O. cbn [bind].
  rewrite (full_name_complete l N a ns P) by (pose proof (path_short l a ns N P I); lia). cbn [bind]. eauto.
Qed.

(** ** the accounts file *)
Lemma account_named_sound order n a : account_named order n = Some a -> In a order /\ ca_name a = n.
Proof.
  intros H. apply find_some in H as [I E]. apply in_rev in I. apply eqb_bytes_eq in E. auto.
Qed.
Lemma account_named_complete order n : In n (map ca_name order) -> exists a, account_named order n = Some a.
Proof.
  intros H. destruct (account_named order n) as [a|] eqn:E; [eauto|]. exfalso. apply in_map_iff in H as (a & Q & I).
  pose proof (find_none _ _ E a (proj1 (in_rev _ _) I)) as F. cbn in F. rewrite (proj2 (eqb_bytes_eq _ _) Q) in F. discriminate.
Qed.
Lemma account_named_unique order a : NoDup (map ca_name order) -> In a order -> account_named order (ca_name a) = Some a.
Proof.
  intros N I. destruct (account_named_complete order (ca_name a)) as (b & E); [apply in_map, I|]. rewrite E. f_equal.
  apply account_named_sound in E as [Ib Eb].
  clear -N I Ib Eb. induction order as [|c order IH]; [destruct I|]. cbn in N. inversion N as [|? ? Nc Nr]; subst.
  destruct I as [->|I], Ib as [->|Ib]; auto; exfalso; apply Nc; [rewrite <- Eb|rewrite Eb]; apply in_map; assumption.
Qed.
Definition item_name (i : item) : bytes := match i with IAccount a => pa_name a | _ => [] end.
Lemma account_items_map order : exists l, account_items order = map (fun a => IAccount (account_item a)) l /\
  map ca_name l = sort_strings (nodup (list_eq_dec ascii_dec) (map ca_name order)) /\ (forall a, In a l -> In a order).
Proof.
  unfold account_items.
  assert (G : forall ns, (forall n, In n ns -> In n (map ca_name order)) -> exists l, flat_map (fun n => match account_named order n with Some a => [IAccount (account_item a)] | None => [] end) ns
     = map (fun a => IAccount (account_item a)) l /\ map ca_name l = ns /\ (forall a, In a l -> In a order)).
  { induction ns as [|n ns IH]; intros H; [exists []; repeat split; easy|]. destruct IH as (l & E1 & E2 & E3); [intros m Hm; apply H; right; exact Hm|].
    destruct (account_named_complete order n (H n (or_introl eq_refl))) as (a & E). exists (a :: l). cbn [flat_map]. rewrite E, E1.
    apply account_named_sound in E as [I Q]. split; [reflexivity|]. split; [cbn; congruence|]. intros b [<-|Hb]; auto. }
  apply G. intros n Hn. apply (Permutation_in _ (Permutation_sym (sort_strings_perm _))) in Hn. apply nodup_In in Hn. exact Hn.
Qed.
