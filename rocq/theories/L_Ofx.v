(** Lemmas: de-duplication of imported transactions. *)
From Coq Require Import Sorted Permutation.
From Verif Require Import Base M_Amount M_Date M_Regex M_Parser M_Names M_Ledger M_Rules M_Ofx S_Amount S_Rules S_Books S_Ofx L_Dec L_Sort L_Amount L_Registers L_Resolve L_Resolve2 L_Load Properties_Ledger.

Definition eqv (L : ledger) (x y : rtx) : bool := match tx_equal L x y with Ok true => true | _ => false end.
Lemma is_equal_scale a b : a_dec a = a_dec b -> is_equal a b = Ok (a_int a =? a_int b).
Proof.
  intros E. unfold is_equal, cmp, adjusted_to. rewrite E, Nat.ltb_irrefl. cbn [bind]. destruct (Z.eqb_spec (a_int a) (a_int b)) as [->|N]; [rewrite Z.compare_refl; reflexivity|].
  destruct (a_int a ?= a_int b) eqn:C; [apply Z.compare_eq in C; congruence|reflexivity|reflexivity].
Qed.
Section Scale.
Variables (L : ledger) (dec : bytes -> nat).
Definition scaled (x : rtx) : Prop := forall p, In p (x_posts x) -> exists a, rp_qty (heap L p) = Some a /\ a_dec a = dec (rp_acc (heap L p)).
Lemma postings_equal_spec ps : forall qs, (forall p, In p ps -> exists a, rp_qty (heap L p) = Some a /\ a_dec a = dec (rp_acc (heap L p))) ->
  (forall p, In p qs -> exists a, rp_qty (heap L p) = Some a /\ a_dec a = dec (rp_acc (heap L p))) -> List.length ps = List.length qs ->
  exists b, postings_equal L ps qs = Ok b /\ (b = true <-> Forall2 (fun p q => rp_acc (heap L p) = rp_acc (heap L q) /\
                      exists a b, rp_qty (heap L p) = Some a /\ rp_qty (heap L q) = Some b /\ same_quantity a b) ps qs).
Proof.
  induction ps as [|p ps IH]; intros [|q qs] Hp Hq E; try discriminate; cbn [postings_equal].
  - exists true. split; [reflexivity|]. split; [constructor|reflexivity].
  - injection E as E. destruct (Hp p (or_introl eq_refl)) as (a & Ea & Da), (Hq q (or_introl eq_refl)) as (b & Eb & Db).
    destruct (IH qs) as (r & Er & Hr); [intros; apply Hp; right; assumption|intros; apply Hq; right; assumption|exact E|]. unfold posting_equal. rewrite Ea, Eb.
    destruct (eqb_bytes (rp_acc (heap L q)) (rp_acc (heap L p))) eqn:Q.
    + apply eqb_bytes_eq in Q. rewrite is_equal_scale by congruence. cbn [bind]. destruct (Z.eqb_spec (a_int b) (a_int a)) as [Ez|Nz].
      * exists r. split; [exact Er|]. rewrite Hr. split.
        -- intros F. constructor; [|exact F]. split; [congruence|]. exists a, b. repeat split; congruence.
        -- intros F. inversion F; assumption.
      * exists false. split; [reflexivity|]. split; [discriminate|]. intros F. inversion F as [|? ? ? ? (_ & a' & b' & E1 & E2 & [E3 _])]; subst. exfalso. apply Nz. congruence.
    + cbn [bind]. exists false. split; [reflexivity|]. split; [discriminate|]. intros F. inversion F as [|? ? ? ? (E1 & _)]; subst. rewrite E1, eqb_bytes_refl in Q. discriminate.
Qed.
Lemma tx_equal_spec x y : scaled x -> scaled y -> exists b, tx_equal L x y = Ok b /\ (b = true <-> alike L x y).
Proof.
  intros Sx Sy. unfold tx_equal, alike. destruct (Z.eqb_spec (x_posted x) (x_posted y)) as [E1|N1]; cbn [negb].
  - destruct (eqb_bytes (x_code x) (x_code y)) eqn:Q; cbn [negb].
    + apply eqb_bytes_eq in Q. destruct (Nat.eqb_spec (List.length (x_posts x)) (List.length (x_posts y))) as [El|Nl]; cbn [negb].
      * destruct (postings_equal_spec (x_posts x) (x_posts y) Sx Sy El) as (b & Eb & Hb). exists b. split; [exact Eb|]. rewrite Hb. tauto.
      * exists false. split; [reflexivity|]. split; [discriminate|]. intros (_ & _ & F). apply Forall2_length in F. congruence.
    + exists false. split; [reflexivity|]. split; [discriminate|]. intros (_ & E & _). rewrite E, eqb_bytes_refl in Q. discriminate.
  - exists false. split; [reflexivity|]. split; [discriminate|]. intros (E & _). congruence.
Qed.
Lemma eqv_spec x y : scaled x -> scaled y -> tx_equal L x y = Ok (eqv L x y) /\ (eqv L x y = true <-> alike L x y).
Proof. intros Sx Sy. destruct (tx_equal_spec x y Sx Sy) as (b & E & H). unfold eqv. rewrite E. destruct b; auto. Qed.
Lemma find_equal_eqv xs t : Forall scaled xs -> scaled t -> find_equal L xs t = Ok (if existsb (fun x => eqv L x t) xs then Some t else None).
Proof.
  induction 1 as [|x xs Sx F IH]; intros St; [reflexivity|]. cbn [find_equal existsb]. destruct (eqv_spec x t Sx St) as [E _]. rewrite E. cbn [bind]. destruct (eqv L x t); [reflexivity|]. apply IH, St.
Qed.
Lemma eqv_posted x y : eqv L x y = true -> x_posted x = x_posted y.
Proof. unfold eqv, tx_equal. destruct (Z.eqb_spec (x_posted x) (x_posted y)); cbn [negb]; [auto|discriminate]. Qed.
Lemma exists_filter xs t : existsb (fun x => eqv L x t) (filter (fun x => x_posted x =? x_posted t) xs) = existsb (fun x => eqv L x t) xs.
Proof.
  induction xs as [|x xs IH]; [reflexivity|]. cbn [filter existsb]. destruct (Z.eqb_spec (x_posted x) (x_posted t)); cbn [existsb]; rewrite IH; [reflexivity|].
  destruct (eqv L x t) eqn:E; [apply eqv_posted in E; congruence|reflexivity].
Qed.
(** all at once *)
Fixpoint keep (old K xs : list rtx) : list rtx :=
  match xs with
  | [] => K
  | t :: rest => if existsb (fun x => eqv L x t) old || existsb (fun x => eqv L x t) K then keep old K rest else keep old (K ++ [t]) rest
  end.
Lemma merge_self ps : forall L0, merge_postings L0 ps ps = Ok L0.
Proof. induction ps as [|p ps IH]; intros L0; [reflexivity|]. cbn [merge_postings]. destruct (rp_bal (heap L0 p)); apply IH. Qed.
Lemma dedupe_keep old xs : by_time old -> by_time xs -> Forall scaled old -> Forall scaled xs -> forall s,
  Forall scaled (d_filtered s ++ d_day s) ->
  (forall x, In x xs -> d_prev s <= x_posted x) -> (forall x, In x (d_filtered s) -> x_posted x < d_prev s) -> (forall x, In x (d_day s) -> x_posted x = d_prev s) ->
  (forall x, In x xs -> x_posted x = d_prev s -> d_old s = day old (d_prev s)) ->
  dedupe L old s xs = Ok (L, keep old (d_filtered s ++ d_day s) xs).
Proof.
  intros So Sx Fo Fx. induction xs as [|t xs IH]; intros s Fk Hge Hf Hd Ho; [reflexivity|]. cbn [dedupe keep]. apply StronglySorted_inv in Sx as [Sx Ht]. inversion Fx as [|? ? St Fx']; subst. rewrite Forall_forall in Ht.
  assert (Ge : d_prev s <= x_posted t) by (apply Hge; left; reflexivity).
  set (s' := if x_posted t =? d_prev s then s else _).
  assert (S' : d_prev s' = x_posted t /\ d_old s' = day old (x_posted t) /\ d_filtered s' ++ d_day s' = d_filtered s ++ d_day s /\
      (forall x, In x (d_filtered s') -> x_posted x < d_prev s') /\ (forall x, In x (d_day s') -> x_posted x = d_prev s')).
  { unfold s'. destruct (Z.eqb_spec (x_posted t) (d_prev s)) as [E|N].
    - split; [congruence|]. split; [rewrite E; eapply Ho; [left; reflexivity|exact E]|]. auto.
    - cbn [d_prev d_old d_filtered d_day]. split; [reflexivity|]. split; [reflexivity|]. split; [apply app_nil_r|]. split; [|intros x []].
      intros x I. apply in_app_iff in I as [I|I]; [apply Hf in I; lia|apply Hd in I; lia]. }
  clearbody s'. destruct S' as (P1 & P2 & P3 & P4 & P5).
  assert (Fd : Forall scaled (filter (fun x => x_posted x =? x_posted t) old)) by (rewrite Forall_forall in *; intros x I; apply filter_In in I as [I _]; apply Fo, I).
  assert (Eq1 : find_equal L (d_old s') t = Ok (if existsb (fun x => eqv L x t) old then Some t else None)) by (rewrite P2, day_filter by exact So; rewrite (find_equal_eqv _ _ Fd St), exists_filter; reflexivity).
  rewrite Eq1. cbn [bind].
  assert (Ho' : forall x, In x xs -> x_posted x = d_prev s' -> d_old s' = day old (d_prev s')) by (intros; rewrite P1; exact P2).
  assert (Hge' : forall x, In x xs -> d_prev s' <= x_posted x) by (intros x I; rewrite P1; apply Ht, I).
  destruct (existsb (fun x => eqv L x t) old) eqn:Eo; cbn [orb].
  - rewrite <- P3. apply IH; auto. rewrite P3. exact Fk.
  - assert (Fday : Forall scaled (d_day s')) by (apply (proj2 (proj1 (Forall_app _ _ _) (eq_ind_r (Forall scaled) Fk P3)))).
    rewrite (find_equal_eqv _ _ Fday St). cbn [bind].
    assert (Ek : existsb (fun x => eqv L x t) (d_filtered s ++ d_day s) = existsb (fun x => eqv L x t) (d_day s')).
    { rewrite <- P3, existsb_app. replace (existsb (fun x => eqv L x t) (d_filtered s')) with false; [reflexivity|]. symmetry. apply not_true_iff_false. intros E. apply existsb_exists in E as (x & I & E). apply eqv_posted in E. apply P4 in I. lia. }
    rewrite Ek. destruct (existsb (fun x => eqv L x t) (d_day s')) eqn:Ed.
    + unfold merge_duplicate. rewrite merge_self. cbn [bind]. rewrite <- P3. apply IH; auto. rewrite P3. exact Fk.
    + rewrite <- P3, <- app_assoc. apply (IH Sx Fx' (mkDD (d_prev s') (d_old s') (d_day s' ++ [t]) (d_filtered s'))); cbn [d_prev d_old d_day d_filtered]; auto.
      * rewrite app_assoc, P3. apply Forall_app. split; [exact Fk|constructor; [exact St|constructor]].
      * intros x I. apply in_app_iff in I as [I|[<-|[]]]; [apply P5, I|congruence].
Qed.
Lemma keep_some old xs : forall K, exists ys, keep old K xs = K ++ ys /\ some_of xs ys.
Proof.
  induction xs as [|t xs IH]; intros K; [exists []; split; [symmetry; apply app_nil_r|constructor]|]. cbn [keep]. destruct (_ || _).
  - destruct (IH K) as (ys & E & S). exists ys. split; [exact E|constructor; exact S].
  - destruct (IH (K ++ [t])) as (ys & E & S). exists (t :: ys). rewrite E, <- app_assoc. split; [reflexivity|constructor; exact S].
Qed.
Lemma keep_dedup old xs : Forall scaled old -> Forall scaled xs -> forall K, Forall scaled K ->
  (forall k o, In k K -> In o old -> ~ alike L o k) -> (forall k1 x k2 y k3, K = k1 ++ x :: k2 ++ y :: k3 -> ~ alike L x y) ->
  (forall k o, In k (keep old K xs) -> In o old -> ~ alike L o k) /\ (forall k1 x k2 y k3, keep old K xs = k1 ++ x :: k2 ++ y :: k3 -> ~ alike L x y) /\
  (forall x, In x xs -> In x (keep old K xs) \/ exists o, (In o old \/ In o (keep old K xs)) /\ alike L o x).
Proof.
  intros Fo. rewrite Forall_forall in Fo. induction 1 as [|t xs St F IH]; intros K FK H1 H2; cbn [keep]; [repeat split; [exact H1|exact H2|intros x []]|]. rewrite Forall_forall in FK.
  destruct (existsb (fun x => eqv L x t) old) eqn:Eo; cbn [orb].
  { destruct (IH K (proj2 (Forall_forall _ _) FK) H1 H2) as (A1 & A2 & A3). repeat split; [exact A1|exact A2|]. intros x [<-|I]; [|apply A3, I]. apply existsb_exists in Eo as (o & I & E). right. exists o. split; [auto|]. apply (proj2 (eqv_spec _ _ (Fo _ I) St)), E. }
  destruct (existsb (fun x => eqv L x t) K) eqn:Ek.
  { destruct (IH K (proj2 (Forall_forall _ _) FK) H1 H2) as (A1 & A2 & A3). repeat split; [exact A1|exact A2|]. intros x [<-|I]; [|apply A3, I]. apply existsb_exists in Ek as (o & I & E). right. exists o. split; [|apply (proj2 (eqv_spec _ _ (FK _ I) St)), E].
    right. destruct (keep_some old xs K) as (ys & -> & _). apply in_or_app. left. exact I. }
  assert (No : forall o, In o old -> ~ alike L o t).
  { intros o I A. apply not_true_iff_false in Eo. apply Eo. apply existsb_exists. exists o. split; [exact I|]. apply (proj2 (eqv_spec _ _ (Fo _ I) St)), A. }
  assert (Nk : forall o, In o K -> ~ alike L o t).
  { intros o I A. apply not_true_iff_false in Ek. apply Ek. apply existsb_exists. exists o. split; [exact I|]. apply (proj2 (eqv_spec _ _ (FK _ I) St)), A. }
  destruct (IH (K ++ [t])) as (A1 & A2 & A3).
  - apply Forall_app. split; [apply Forall_forall, FK|constructor; [exact St|constructor]].
  - intros k o I. apply in_app_iff in I as [I|[<-|[]]]; [apply H1, I|intros Io; apply No, Io].
  - intros k1 x k2 y k3 E. destruct k3 as [|z k3] using rev_ind.
    + replace (k1 ++ x :: k2 ++ [y]) with ((k1 ++ x :: k2) ++ [y]) in E by (rewrite <- app_assoc; reflexivity). apply app_inj_tail in E as [-> ->]. apply Nk. apply in_elt.
    + clear IHk3. replace (k1 ++ x :: k2 ++ y :: k3 ++ [z]) with ((k1 ++ x :: k2 ++ y :: k3) ++ [z]) in E by (rewrite <- !app_assoc; cbn [app]; rewrite <- !app_assoc; reflexivity).
      apply app_inj_tail in E as [-> ->]. eapply H2. reflexivity.
  - repeat split; [exact A1|exact A2|]. intros x [<-|I]; [|apply A3, I]. left. destruct (keep_some old xs (K ++ [t])) as (ys & -> & _). apply in_or_app. left. apply in_or_app. right. left. reflexivity.
Qed.
End Scale.
Lemma filter_dupes_spec L old xs : by_time old -> by_time xs -> one_scale L (old ++ xs) -> (forall x, In x xs -> zero_time < x_posted x) ->
  exists kept, filter_dupes L old xs = Ok (L, kept) /\ deduplicated L old xs kept.
Proof.
  intros So Sx (dec & Hd) Hz. assert (Fo : Forall (scaled L dec) old) by (apply Forall_forall; intros x I p Ip; apply (Hd x p); [apply in_or_app; left; exact I|exact Ip]).
  assert (Fx : Forall (scaled L dec) xs) by (apply Forall_forall; intros x I p Ip; apply (Hd x p); [apply in_or_app; right; exact I|exact Ip]).
  exists (keep L old [] xs). split.
  - unfold filter_dupes. rewrite (dedupe_keep L dec old xs So Sx Fo Fx); cbn [d_prev d_old d_day d_filtered app]; [reflexivity|constructor| | | |].
    + intros x I. apply Hz in I. lia.
    + intros x [].
    + intros x [].
    + intros x I E. apply Hz in I. lia.
  - destruct (keep_some L old xs []) as (ys & E & S). cbn [app] in E. unfold deduplicated. split; [rewrite E; exact S|].
    destruct (keep_dedup L dec old xs Fo Fx [] (Forall_nil _)) as (A1 & A2 & A3); [intros ? ? []|intros [|] ? ? ? ? E0; discriminate|]. auto.
Qed.
