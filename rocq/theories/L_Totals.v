(** Lemmas: totals by period and category in one commodity. *)
From Coq Require Import Sorted Permutation.
From Verif Require Import Base M_Amount M_Parser M_Names M_Ledger M_Report S_Amount S_Report S_Names S_Books L_Dec L_Sort L_Names L_Amount L_Registers L_Resolve L_Resolve2 L_Load L_Tree L_Tree2 L_Balance.

Definition eamt (e : entry) : Z := a_int (e_qty e).
Notation cval := value_in_cell.
Notation lval := amount_on.

Section One.
Context (conv : conversion) (bt : option (Z -> Z)) (bc : bool) (com : commodity).

(** ** find *)
Lemma find_app l l' t : List.find (fun c => c_time c =? t) (l ++ l') =
  match List.find (fun c => c_time c =? t) l with Some c => Some c | None => List.find (fun c => c_time c =? t) l' end.
Proof. induction l as [|a l IH]; cbn; [reflexivity|]. destruct (c_time a =? t); auto. Qed.
Lemma find_miss l t : Forall (fun c => c_time c <> t) l -> List.find (fun c => c_time c =? t) l = None.
Proof. induction 1 as [|a l H F IH]; cbn; [reflexivity|]. destruct (Z.eqb_spec (c_time a) t); [tauto|exact IH]. Qed.
Lemma lval_cons a l t k : lval bc (a :: l) t k = if c_time a =? t then cval bc k a else lval bc l t k.
Proof. unfold amount_on. cbn. destruct (c_time a =? t); reflexivity. Qed.
Lemma lval_app l l' t k : lval bc (l ++ l') t k =
  match List.find (fun c => c_time c =? t) l with Some c => cval bc k c | None => lval bc l' t k end.
Proof. unfold amount_on. rewrite find_app. destruct (List.find _ l); reflexivity. Qed.
Lemma lval_miss l t k : Forall (fun c => c_time c <> t) l -> lval bc l t k = None.
Proof. intros H. unfold amount_on. rewrite find_miss by exact H. reflexivity. Qed.
Lemma up_app l l' : times_up (l ++ l') <-> times_up l /\ times_up l' /\ forall a b, In a l -> In b l' -> c_time a < c_time b.
Proof.
  unfold times_up. induction l as [|x l IH]; cbn [app].
  - split; [intros H; repeat split; [constructor|exact H|intros ? ? []]|tauto].
  - split.
    + intros H. inversion H as [|? ? H1 H2]; subst. apply IH in H1 as (H1 & H1' & H1''). apply Forall_app in H2 as [H2 H2'].
      repeat split; [constructor; auto|auto|]. intros a b [<-|Ia] Ib; [rewrite Forall_forall in H2'; auto|auto].
    + intros (H & H' & H''). inversion H as [|? ? H1 H2]; subst. constructor.
      * apply IH. repeat split; auto. intros a b Ia Ib. apply H''; [right|]; auto.
      * apply Forall_app. split; [exact H2|]. apply Forall_forall. intros b Ib. apply H''; [left; reflexivity|exact Ib].
Qed.
Lemma up_cons a l : times_up (a :: l) <-> times_up l /\ forall b, In b l -> c_time a < c_time b.
Proof.
  unfold times_up. split; [intros H; inversion H as [|? ? H1 H2]; subst; rewrite Forall_forall in H2; auto|].
  intros [H1 H2]. constructor; [exact H1|apply Forall_forall; exact H2].
Qed.
Lemma up_split t l : times_up l -> exists lo hi, l = lo ++ hi /\ (forall x, In x lo -> c_time x < t) /\ (forall x, In x hi -> t <= c_time x).
Proof.
  induction l as [|x l IH]; intros H.
  - exists [], []. repeat split; cbn; tauto.
  - apply up_cons in H as [H1 H2]. destruct (Z.lt_ge_cases (c_time x) t) as [E|E].
    + destruct (IH H1) as (lo & hi & -> & L & U). exists (x :: lo), hi. split; [reflexivity|]. split; [|exact U]. intros y [<-|I]; auto.
    + exists [], (x :: l). split; [reflexivity|]. split; [intros ? []|]. intros y [<-|I]; [lia|]. specialize (H2 y I). lia.
Qed.

(** ** category maps *)
Lemma bset_keys k v m x : In x (map fst (bset k v m)) <-> x = k \/ In x (map fst m).
Proof.
  induction m as [|[k' w] m IH]; cbn [bset map fst].
  - cbn. intuition congruence.
  - destruct (eqb_bytes k k') eqn:E; cbn [map fst In].
    + apply eqb_bytes_iff in E. subst. intuition congruence.
    + rewrite IH. intuition congruence.
Qed.
Lemma bset_nodup k v m : NoDup (map fst m) -> NoDup (map fst (bset k v m)).
Proof.
  induction m as [|[k' w] m IH]; cbn [bset map fst]; intros H; [constructor; [intros []|constructor]|].
  inversion H as [|? ? H1 H2]; subst. destruct (eqb_bytes k k') eqn:E; cbn [map fst]; [exact H|].
  constructor; [|apply IH, H2]. rewrite bset_keys. intros [->|I]; [|tauto]. rewrite eqb_bytes_refl in E. discriminate.
Qed.
Lemma bset_com k v m : a_com v = com -> Forall (fun kv => a_com (snd kv) = com) m -> Forall (fun kv => a_com (snd kv) = com) (bset k v m).
Proof.
  intros Hv. induction 1 as [|[k' w] m H F IH]; cbn [bset]; [constructor; [exact Hv|constructor]|].
  destruct (eqb_bytes k k'); constructor; auto.
Qed.
Lemma bset_nonnil k v m : bset k v m <> [].
Proof. destruct m as [|[k' w] m]; cbn; [discriminate|]. destruct (eqb_bytes k k'); discriminate. Qed.
Lemma bget_in k m v : bget k m = Some v -> In (k, v) m.
Proof.
  induction m as [|[k' w] m IH]; cbn [bget]; [discriminate|]. destruct (eqb_bytes k k') eqn:E; [|right; auto].
  intros [= <-]. apply eqb_bytes_iff in E. subst. left. reflexivity.
Qed.
Lemma bget_none k m : bget k m = None <-> ~ In k (map fst m).
Proof.
  induction m as [|[k' w] m IH]; cbn [bget map fst In]; [tauto|]. destruct (eqb_bytes k k') eqn:E.
  - apply eqb_bytes_iff in E. subst. split; [discriminate|]. intros H. exfalso. apply H. left. reflexivity.
  - apply eqb_bytes_no in E. rewrite IH. intuition congruence.
Qed.
Lemma bget_com k m v : Forall (fun kv => a_com (snd kv) = com) m -> bget k m = Some v -> a_com v = com.
Proof. intros F E. apply bget_in in E. rewrite Forall_forall in F. apply (F _ E). Qed.
Lemma bget_set a b v m : bget b (bset a v m) = if eqb_bytes b a then Some v else bget b m.
Proof.
  destruct (eqb_bytes b a) eqn:E.
  - apply eqb_bytes_iff in E. subst. apply bget_set_same.
  - apply eqb_bytes_no in E. apply bget_set_other. congruence.
Qed.

(** what merging does to one value *)
Definition comb (ko : bool) (a b : option amount) : option amount :=
  match a, b with
  | Some x, Some y => Some (if ko then x else mkAmount (a_int x + a_int y) com)
  | Some x, None => Some x
  | None, Some y => Some (if ko then zero_amount com else y)
  | None, None => None
  end.
Lemma cats_spec ko : forall m2 m, NoDup (map fst m2) -> Forall (fun kv => a_com (snd kv) = com) m2 ->
  NoDup (map fst m) -> Forall (fun kv => a_com (snd kv) = com) m ->
  exists m', cats_add_in conv ko m m2 = Ok m' /\ NoDup (map fst m') /\ Forall (fun kv => a_com (snd kv) = com) m' /\
    (m <> [] \/ m2 <> [] -> m' <> []) /\ forall k, bget k m' = comb ko (bget k m) (bget k m2).
Proof.
  induction m2 as [|[k v] m2 IH]; intros m N2 F2 N F; cbn [cats_add_in].
  - exists m. repeat split; auto; [intros [H|H]; tauto|]. intros k. cbn. destruct (bget k m); reflexivity.
  - cbn [map fst] in N2. inversion N2 as [|? ? N21 N22]; subst. inversion F2 as [|? ? F21 F22]; subst. cbn [snd] in F21.
    assert (Step : forall v', a_com v' = com -> Some v' = comb ko (bget k m) (Some v) ->
      exists m', cats_add_in conv ko (bset k v' m) m2 = Ok m' /\ NoDup (map fst m') /\ Forall (fun kv => a_com (snd kv) = com) m' /\
        (m <> [] \/ (k, v) :: m2 <> [] -> m' <> []) /\ forall k0, bget k0 m' = comb ko (bget k0 m) (bget k0 ((k, v) :: m2))).
    { intros v' Hv' Ec. destruct (IH (bset k v' m) N22 F22) as (m' & E & N' & F' & Z' & G); [apply bset_nodup, N|apply bset_com; auto|].
      exists m'. split; [exact E|]. split; [exact N'|]. split; [exact F'|]. split; [intros _; apply Z'; left; apply bset_nonnil|].
      intros k0. rewrite G, bget_set. cbn [bget]. destruct (eqb_bytes k0 k) eqn:E0; [|reflexivity].
      apply eqb_bytes_iff in E0. subst k0. apply bget_none in N21. rewrite N21, <- Ec. reflexivity. }
    destruct (bget k m) as [a|] eqn:Ea.
    + assert (Ha := bget_com _ _ _ F Ea). destruct ko.
      * destruct (IH m N22 F22 N F) as (m' & E & N' & F' & Z' & G). exists m'. split; [exact E|]. split; [exact N'|]. split; [exact F'|].
        assert (Hm : m <> []) by (intros ->; discriminate). split; [intros _; apply Z'; left; exact Hm|].
        intros k0. rewrite G. cbn [bget]. destruct (eqb_bytes k0 k) eqn:E0; [|reflexivity]. apply eqb_bytes_iff in E0. subst k0.
        apply bget_none in N21. rewrite N21, Ea. reflexivity.
      * unfold add_or_keep. rewrite add_in_same by congruence. cbn [bind]. apply Step; cbn [a_com comb]; congruence.
    + destruct ko; apply Step; cbn [comb a_com zero_amount]; congruence.
Qed.
Lemma cell_add_spec ko a b : cell_ok bc com a -> cell_ok bc com b -> c_time a = c_time b ->
  exists c, cell_add_in conv ko a b = Ok c /\ cell_ok bc com c /\ c_time c = c_time a /\ forall k, cval bc k c = comb ko (cval bc k a) (cval bc k b).
Proof.
  intros Ha Hb Et. unfold cell_add_in. rewrite Et, Z.eqb_refl. cbn [negb]. unfold cell_ok, value_in_cell in *. destruct bc.
  - destruct Ha as (Ta & Za & Na & Fa), Hb as (Tb & Zb & Nb & Fb). rewrite Ta.
    destruct (cats_spec ko (c_cats b) (c_cats a) Nb Fb Na Fa) as (m & E & N & F & Z' & G). rewrite E. cbn [bind].
    exists (mkCell (c_time a) None m). cbn. rewrite <- Et. repeat split; auto.
  - destruct Ha as ((x & Tx & Cx) & Ca), Hb as ((y & Ty & Cy) & Cb). rewrite Tx, Ty, Cb. destruct ko.
    + cbn [cats_add_in bind]. eexists. split; [reflexivity|]. cbn. rewrite Ca. repeat split; eauto.
    + unfold add_or_keep. rewrite add_in_same by congruence. cbn [bind]. eexists. split; [reflexivity|]. cbn. rewrite Ca.
      repeat split; eauto. intros _. rewrite Cx. reflexivity.
Qed.
Lemma cell_com c : cell_ok bc com c -> cell_commodity c = Some com.
Proof.
  unfold cell_ok, cell_commodity. destruct bc.
  - intros (T & Z' & N & F). rewrite T. destruct (c_cats c) as [|[k a] r]; [tauto|]. inversion F; subst. reflexivity.
  - intros ((a & T & C) & _). rewrite T. f_equal. exact C.
Qed.
Lemma first_com l : Forall (cell_ok bc com) l -> first_commodity l = None \/ first_commodity l = Some com.
Proof. induction 1 as [|c l H F IH]; cbn; [auto|]. rewrite cell_com by exact H. auto. Qed.
Lemma new_spec ko ts c b : by_cat ts = bc -> cell_ok bc com b -> c = Some com ->
  exists n m, new_total ts (c_time b) c = Ok n /\ cell_add_in conv ko n b = Ok m /\ cell_ok bc com m /\ c_time m = c_time b /\
    forall k, cval bc k m = comb ko None (cval bc k b).
Proof.
  intros Hb Ob ->. unfold new_total. rewrite Hb. unfold cell_ok, value_in_cell in *. destruct bc.
  - destruct Ob as (T & Z' & N & F). exists (mkCell (c_time b) None []). unfold cell_add_in. cbn [c_time c_total c_cats]. rewrite Z.eqb_refl. cbn [negb].
    destruct (cats_spec ko (c_cats b) [] N F (NoDup_nil _) (Forall_nil _)) as (m & E & N' & F' & Zm & G).
    exists (mkCell (c_time b) None m). split; [reflexivity|]. rewrite E. cbn. repeat split; auto.
  - destruct Ob as ((y & Ty & Cy) & Cb). exists (mkCell (c_time b) (Some (zero_amount com)) []). unfold cell_add_in. cbn [c_time c_total c_cats]. rewrite Ty, Cb. destruct ko.
    + eexists. rewrite Z.eqb_refl. split; [reflexivity|]. cbn. split; [reflexivity|]. cbn. repeat split; eauto.
    + eexists. rewrite Z.eqb_refl. split; [reflexivity|]. cbn [negb]. unfold add_or_keep. rewrite add_in_same by (cbn; congruence).
      cbn. split; [reflexivity|]. cbn. repeat split; eauto. intros _. destruct y; cbn in *. congruence.
Qed.

(** ** the merge *)
Lemma merge_match_spec ko ts (Hbc : by_cat ts = bc) : forall l2 rem j, line_ok bc com rem -> line_ok bc com l2 ->
  exists rem' extras, merge_match conv ko rem j l2 = Ok (rem', extras) /\ List.length rem' = List.length rem /\ Forall (cell_ok bc com) rem' /\
    (extras = [] -> forall b, In b l2 -> exists a, In a rem /\ c_time a = c_time b) /\
    forall pre built cur, List.length pre = j -> Forall (cell_ok bc com) built -> Forall (cell_ok bc com) pre ->
      (cur = None \/ exists c, cur = Some c /\ cell_ok bc com c) ->
      exists out, merge_insert conv ko ts cur built (pre ++ rem') extras = Ok (built ++ pre ++ out) /\ line_ok bc com out /\
        (forall x, In x out -> exists y, In y (rem ++ l2) /\ c_time y = c_time x) /\
        (forall y, In y (rem ++ l2) -> exists x, In x out /\ c_time y = c_time x) /\
        forall t k, lval bc out t k = comb ko (lval bc rem t k) (lval bc l2 t k).
Proof.
  induction l2 as [|b l2 IH]; intros rem j [Ur Or] [U2 O2]; cbn [merge_match].
  - exists rem, []. split; [reflexivity|]. split; [reflexivity|]. split; [exact Or|]. split; [intros _ ? []|].
    intros pre built cur Hp Ob Op Hc. exists rem. cbn [merge_insert]. split; [reflexivity|]. split; [split; auto|].
    rewrite app_nil_r. split; [eauto|]. split; [eauto|]. intros t k. destruct (lval bc rem t k); reflexivity.
  - apply Forall_cons_iff in O2 as [Ob O2']. apply up_cons in U2 as [U2 Lb].
    destruct (up_split (c_time b) rem Ur) as (lo & hi & -> & Llo & Uhi).
    apply up_app in Ur as (Ulo & Uhi' & Ulh). apply Forall_app in Or as [Olo Ohi].
    assert (Es : search (List.length (lo ++ hi)) (fun i => negb (c_time (nth i (lo ++ hi) (mkCell 0 None [])) <? c_time b)) = List.length lo).
    { apply (search_split (fun x => negb (c_time x <? c_time b))); intros x I; [specialize (Llo x I)|specialize (Uhi x I)]; lia. }
    rewrite Es. rewrite firstn_app, firstn_all, Nat.sub_diag, skipn_app, skipn_all, Nat.sub_diag. cbn [firstn skipn app]. rewrite app_nil_r.
    (* the case of no match *)
    assert (Miss : Forall (fun c => c_time c <> c_time b) hi -> forall x, merge_match conv ko hi 0 l2 = x ->
      exists rem' extras, (do y <- x; Ok (lo ++ fst y, ((j + List.length lo)%nat, b) :: snd y)) = Ok (rem', extras) /\
        List.length rem' = List.length (lo ++ hi) /\ Forall (cell_ok bc com) rem' /\
        (extras = [] -> forall b0, In b0 (b :: l2) -> exists a, In a (lo ++ hi) /\ c_time a = c_time b0) /\
        forall pre built cur, List.length pre = j -> Forall (cell_ok bc com) built -> Forall (cell_ok bc com) pre ->
          (cur = None \/ exists c, cur = Some c /\ cell_ok bc com c) ->
          exists out, merge_insert conv ko ts cur built (pre ++ rem') extras = Ok (built ++ pre ++ out) /\ line_ok bc com out /\
            (forall x, In x out -> exists y, In y ((lo ++ hi) ++ b :: l2) /\ c_time y = c_time x) /\
            (forall y, In y ((lo ++ hi) ++ b :: l2) -> exists x, In x out /\ c_time y = c_time x) /\
            forall t k, lval bc out t k = comb ko (lval bc (lo ++ hi) t k) (lval bc (b :: l2) t k)).
    { intros Nb x Ex. destruct (IH hi O (conj Uhi' Ohi) (conj U2 O2')) as (rem' & extras & Em & Len & Or' & _ & Ins). rewrite Ex in Em. subst x. rewrite Em.
      cbn [bind fst snd]. eexists _, _. split; [reflexivity|]. split; [rewrite !app_length, Len; reflexivity|]. split; [apply Forall_app; auto|].
      split; [discriminate|]. intros pre built cur Hp Obu Op Hcur. cbn [merge_insert].
      set (cm := match (match cur with Some c => cell_commodity c | None => None end) with
                 | Some c => Some c
                 | None => match first_commodity built with Some c => Some c | None => cell_commodity b end end).
      assert (Ecm : cm = Some com).
      { unfold cm. destruct Hcur as [->|(c0 & -> & Oc)]; [|rewrite cell_com by exact Oc; reflexivity].
        destruct (first_com built Obu) as [->| ->]; [apply cell_com, Ob|reflexivity]. }
      destruct (new_spec ko ts cm b Hbc Ob Ecm) as (n0 & n & En0 & En & On & Tn & Vn). rewrite En0. cbn [bind]. rewrite En. cbn [bind].
      replace (firstn (j + List.length lo) (pre ++ lo ++ rem')) with (pre ++ lo).
      2:{ rewrite app_assoc, firstn_app, app_length, Hp, Nat.sub_diag. cbn [firstn]. rewrite app_nil_r, firstn_all2; [reflexivity|]. rewrite app_length. lia. }
      replace (skipn (j + List.length lo) (pre ++ lo ++ rem')) with rem'.
      2:{ rewrite app_assoc, skipn_app, app_length, Hp, Nat.sub_diag. cbn [skipn]. rewrite skipn_all2; [reflexivity|]. rewrite app_length. lia. }
      destruct (Ins [] (built ++ (pre ++ lo) ++ [n]) cur) as (out & Eo & [Uo Oo] & S1 & S2 & Vo); [reflexivity| |constructor|exact Hcur|].
      { repeat (apply Forall_app; split; auto). }
      exists (lo ++ n :: out). cbn [app] in Eo. rewrite Eo. split; [rewrite <- !app_assoc; reflexivity|].
      assert (Lo : forall x, In x out -> c_time b < c_time x).
      { intros x I. apply S1 in I as (y & Iy & <-). apply in_app_iff in Iy as [Iy|Iy]; [|auto].
        rewrite Forall_forall in Nb. specialize (Nb y Iy). specialize (Uhi y Iy). lia. }
      split; [|split; [|split]].
      - split; [|apply Forall_app; split; auto]. apply up_app. split; [exact Ulo|]. split.
        + apply up_cons. split; [exact Uo|]. intros x I. rewrite Tn. auto.
        + intros a x Ia [<-|I]; [rewrite Tn; auto|]. specialize (Llo a Ia). specialize (Lo x I). lia.
      - intros x I. apply in_app_iff in I as [I|[<-|I]].
        + exists x. split; [|reflexivity]. rewrite !in_app_iff. auto.
        + exists b. split; [|congruence]. rewrite in_app_iff. right. left. reflexivity.
        + apply S1 in I as (y & Iy & E). exists y. split; [|exact E]. rewrite in_app_iff in Iy. rewrite !in_app_iff. cbn [In]. tauto.
      - intros y I. rewrite !in_app_iff in I. cbn [In] in I. destruct I as [[I|I]|[<-|I]].
        + exists y. split; [apply in_app_iff; auto|reflexivity].
        + destruct (S2 y) as (x & Ix & E); [apply in_app_iff; auto|]. exists x. split; [apply in_app_iff; right; right; exact Ix|exact E].
        + exists n. split; [apply in_app_iff; right; left; reflexivity|congruence].
        + destruct (S2 y) as (x & Ix & E); [apply in_app_iff; auto|]. exists x. split; [apply in_app_iff; right; right; exact Ix|exact E].
      - intros t k. rewrite !lval_app, !lval_cons, Tn. destruct (Z.eqb_spec (c_time b) t) as [E|E].
        + subst t. rewrite find_miss by (apply Forall_forall; intros c Ic; specialize (Llo c Ic); lia).
          rewrite (lval_miss hi) by exact Nb. rewrite Vn. cbn [comb]. reflexivity.
        + destruct (List.find (fun c => c_time c =? t) lo) as [c|] eqn:Ef.
          * apply List.find_some in Ef as [Ic Et]. rewrite (lval_miss l2).
            2:{ apply Forall_forall. intros x I. specialize (Lb x I). specialize (Llo c Ic). lia. }
            destruct (cval bc k c); reflexivity.
          * apply Vo. }
    destruct hi as [|h hi'] eqn:Ehi.
    { apply Miss; [constructor|reflexivity]. }
    destruct (Z.eqb_spec (c_time h) (c_time b)) as [Eh|Eh].
    2:{ apply Miss; [|reflexivity]. constructor; [exact Eh|]. apply up_cons in Uhi' as [_ Hh].
        apply Forall_forall. intros c Ic. specialize (Hh c Ic). specialize (Uhi h (or_introl eq_refl)). lia. }
    clear Miss. apply Forall_cons_iff in Ohi as [Oh Ohi']. apply up_cons in Uhi' as [Uhi' Hh].
    destruct (cell_add_spec ko h b Oh Ob Eh) as (h' & Eadd & Oh' & Th' & Vh'). rewrite Eadd. cbn [bind].
    destruct (IH (h' :: hi') (j + List.length lo)%nat) as (rem' & extras & Em & Len & Or' & Ext & Ins).
    { split; [apply up_cons; split; [exact Uhi'|rewrite Th'; exact Hh]|constructor; auto]. }
    { split; auto. }
    rewrite Em. cbn [bind fst snd]. eexists _, _. split; [reflexivity|]. split; [rewrite !app_length, Len; reflexivity|]. split; [apply Forall_app; auto|].
    split.
    { intros Ee b0 [<-|I0]; [exists h; split; [apply in_app_iff; right; left; reflexivity|exact Eh]|].
      destruct (Ext Ee b0 I0) as (a & [<-|Ia] & E); [exists h; split; [apply in_app_iff; right; left; reflexivity|congruence]|].
      exists a. split; [apply in_app_iff; right; right; exact Ia|exact E]. }
    intros pre built cur Hp Obu Op Hcur.
    destruct (Ins (pre ++ lo) built cur) as (out & Eo & [Uo Oo] & S1 & S2 & Vo); [rewrite app_length; lia|exact Obu|apply Forall_app; auto|exact Hcur|].
    exists (lo ++ out). rewrite <- app_assoc in Eo. rewrite Eo. split; [rewrite <- !app_assoc; reflexivity|].
    assert (Lo : forall x, In x out -> c_time b <= c_time x).
    { intros x I. apply S1 in I as (y & Iy & <-). cbn [app In] in Iy. destruct Iy as [<-|Iy]; [lia|]. apply in_app_iff in Iy as [Iy|Iy].
      - specialize (Hh y Iy). lia.
      - specialize (Lb y Iy). lia. }
    split; [|split; [|split]].
    + split; [|apply Forall_app; auto]. apply up_app. split; [exact Ulo|]. split; [exact Uo|].
      intros a x Ia Ix. specialize (Llo a Ia). specialize (Lo x Ix). lia.
    + intros x I. apply in_app_iff in I as [I|I]; [exists x; split; [rewrite !in_app_iff; auto|reflexivity]|].
      apply S1 in I as (y & Iy & E). cbn [app In] in Iy. destruct Iy as [<-|Iy].
      * exists h. split; [rewrite !in_app_iff; cbn [In]; auto|congruence].
      * exists y. split; [|exact E]. rewrite in_app_iff in Iy. rewrite !in_app_iff. cbn [In]. tauto.
    + intros y I. rewrite !in_app_iff in I. cbn [In] in I.
      assert (K : y = h \/ In y hi' \/ y = b \/ In y l2 -> exists x, In x out /\ c_time y = c_time x).
      { intros [->|[I'|[->|I']]].
        - destruct (S2 h') as (x & Ix & E); [left; reflexivity|]. exists x. split; [exact Ix|congruence].
        - apply S2. right. apply in_app_iff. auto.
        - destruct (S2 h') as (x & Ix & E); [left; reflexivity|]. exists x. split; [exact Ix|congruence].
        - apply S2. right. apply in_app_iff. auto. }
      destruct I as [[I|[<-|I]]|[<-|I]]; [exists y; split; [apply in_app_iff; auto|reflexivity]| | | |];
        destruct K as (x & Ix & E); [auto|exists x; split; [apply in_app_iff; auto|exact E]|auto|exists x; split; [apply in_app_iff; auto|exact E]|
          auto|exists x; split; [apply in_app_iff; auto|exact E]|auto|exists x; split; [apply in_app_iff; auto|exact E]].
    + intros t k. rewrite !lval_app, !lval_cons. destruct (Z.eqb_spec (c_time b) t) as [E|E].
      * subst t. rewrite find_miss by (apply Forall_forall; intros c Ic; specialize (Llo c Ic); lia).
        rewrite Vo, lval_cons, Th', Eh, Z.eqb_refl, Vh'. rewrite (lval_miss l2).
        2:{ apply Forall_forall. intros x I. specialize (Lb x I). lia. }
        destruct (comb ko (cval bc k h) (cval bc k b)) eqn:Ec; reflexivity.
      * destruct (List.find (fun c => c_time c =? t) lo) as [c|] eqn:Ef.
        -- apply List.find_some in Ef as [Ic Et]. rewrite (lval_miss l2).
           2:{ apply Forall_forall. intros x I. specialize (Lb x I). specialize (Llo c Ic). lia. }
           destruct (cval bc k c); reflexivity.
        -- rewrite Vo, lval_cons, Th', Eh. destruct (Z.eqb_spec (c_time b) t); [tauto|]. reflexivity.
Qed.

(** ** one account's totals *)
Lemma up_one l : times_up l -> (forall c, In c l -> c_time c = 0) -> l = [] \/ exists c, l = [c].
Proof.
  intros U Z0. destruct l as [|a [|b l]]; [auto|eauto|]. apply up_cons in U as [_ U]. specialize (U b (or_introl eq_refl)).
  rewrite (Z0 a), (Z0 b) in U by (cbn; auto). lia.
Qed.
Lemma copy_spec ko c : bc = true -> cell_ok bc com c -> cell_ok bc com (cell_copy ko c) /\ c_time (cell_copy ko c) = c_time c /\
  forall k, cval bc k (cell_copy ko c) = comb ko None (cval bc k c).
Proof.
  intros Hb Oc. unfold cell_ok, value_in_cell in *. rewrite Hb in *. destruct Oc as (T & Z' & N & F). unfold cell_copy. rewrite T.
  cbn [c_total c_cats c_time]. split; [|split; [reflexivity|]].
  - split; [reflexivity|]. split; [destruct (c_cats c); [tauto|discriminate]|]. split.
    + rewrite map_map. cbn [fst]. exact N.
    + apply Forall_forall. intros kv I. apply in_map_iff in I as (kv' & <- & I). cbn [snd]. rewrite Forall_forall in F. specialize (F kv' I).
      destruct ko; exact F.
  - intros k. clear Z' N T. induction F as [|[k' v] m H F IH]; [reflexivity|]. cbn [map fst snd bget]. destruct (eqb_bytes k k').
    + cbn [comb]. destruct ko; [|reflexivity]. cbn [snd] in H. rewrite H. reflexivity.
    + exact IH.
Qed.
Lemma last_app l (c : cell) : last_cell (l ++ [c]) = Some c.
Proof. unfold last_cell. rewrite rev_app_distr. reflexivity. Qed.
Lemma last_some l c : last_cell l = Some c -> In c l.
Proof. unfold last_cell. destruct (rev l) as [|x r] eqn:E; [discriminate|]. intros [= <-]. apply in_rev. rewrite E. left. reflexivity. Qed.
Lemma last_none l : last_cell l = None -> l = [].
Proof. unfold last_cell. destruct (rev l) as [|x r] eqn:E; [|discriminate]. intros _. apply (f_equal (@rev cell)) in E. rewrite rev_involutive in E. exact E. Qed.

Lemma merge_spec ko ts ts2 : (bt <> None \/ bc = true) -> timeline_ok bt bc com ts -> timeline_ok bt bc com ts2 ->
  exists ts', merge_totals conv ko ts ts2 = Ok ts' /\ timeline_ok bt bc com ts' /\
    forall t k, lval bc (cells ts') t k = comb ko (lval bc (cells ts) t k) (lval bc (cells ts2) t k).
Proof.
  intros Hagg (B1 & C1 & L1 & Z1) (B2 & C2 & L2 & Z2). unfold merge_totals. rewrite B1. destruct bt as [r|] eqn:Ebt.
  - destruct (merge_match_spec ko ts C1 (cells ts2) (cells ts) O L1 L2) as (rem' & extras & E & Len & Or & Ext & Ins). rewrite E. cbn [bind fst snd].
    destruct (Ins [] [] (last_cell rem')) as (out & Eo & Lo & S1 & S2 & V); [reflexivity|constructor|constructor| |].
    { destruct (last_cell rem') as [c|] eqn:El; [right|left; reflexivity]. exists c. split; [reflexivity|]. apply last_some in El.
      rewrite Forall_forall in Or. auto. }
    destruct extras as [|x extras].
    + cbn [app merge_insert] in Eo. injection Eo as ->. exists (with_cells ts out). split; [reflexivity|]. split; [|exact V].
      unfold timeline_ok. cbn. rewrite B1. repeat split; auto; try apply Lo. congruence.
    + cbn [app] in Eo. rewrite Eo. cbn [bind]. exists (with_cells ts out). split; [reflexivity|]. split; [|exact V].
      unfold timeline_ok. cbn. rewrite B1. repeat split; auto; try apply Lo. congruence.
  - destruct Hagg as [Hagg|Hagg]; [tauto|]. destruct L1 as [U1 O1], L2 as [U2 O2].
    destruct (up_one _ U2 (Z2 eq_refl)) as [E2|(c2 & E2)]; rewrite E2.
    { exists ts. split; [reflexivity|]. split; [unfold timeline_ok; rewrite B1; repeat split; auto|]. intros t k. unfold amount_on at 3. cbn [List.find].
      destruct (lval bc (cells ts) t k); reflexivity. }
    change (last_cell [c2]) with (Some c2). cbv iota beta.
    assert (Oc2 : cell_ok bc com c2) by (rewrite E2 in O2; inversion O2; auto).
    assert (T2 : c_time c2 = 0) by (apply (Z2 eq_refl); rewrite E2; left; reflexivity).
    destruct (up_one _ U1 (Z1 eq_refl)) as [E1|(c1 & E1)]; rewrite E1.
    + change (last_cell []) with (@None cell). cbv iota beta. destruct (copy_spec ko c2 Hagg Oc2) as (Oc & Tc & Vc).
      exists (with_cells ts [cell_copy ko c2]). split; [reflexivity|]. split.
      * unfold timeline_ok. cbn. rewrite B1. repeat split; auto; [constructor; [constructor|constructor]|].
        intros _ c [<-|[]]. congruence.
      * intros t k. unfold with_cells. cbn [cells]. rewrite !lval_cons, Tc. destruct (c_time c2 =? t); [apply Vc|reflexivity].
    + change (last_cell [c1]) with (Some c1). cbv iota beta.
      assert (Oc1 : cell_ok bc com c1) by (rewrite E1 in O1; inversion O1; auto).
      assert (T1 : c_time c1 = 0) by (apply (Z1 eq_refl); rewrite E1; left; reflexivity).
      destruct (cell_add_spec ko c1 c2 Oc1 Oc2 ltac:(congruence)) as (c' & E' & O' & T' & V'). rewrite E'. cbn [bind].
      exists (with_cells ts [c']). split; [reflexivity|]. split.
      * unfold timeline_ok. cbn. rewrite B1. repeat split; auto; [constructor; [constructor|constructor]|].
        intros _ c [<-|[]]. congruence.
      * intros t k. unfold with_cells. cbn [cells]. rewrite !lval_cons, T', T1, T2. destruct (0 =? t); [apply V'|reflexivity].
Qed.

Definition sums (ts : tts) (V K : list entry) : Prop :=
  timeline_ok bt bc com ts /\ (forall t k, has_line bt bc t k V = true -> has_line bt bc t k K = true) /\
  forall t k, lval bc (cells ts) t k = if has_line bt bc t k K then Some (mkAmount (line_sum bt bc t k V) com) else None.
Lemma has_app t k l l' : has_line bt bc t k (l ++ l') = has_line bt bc t k l || has_line bt bc t k l'.
Proof. apply existsb_app. Qed.
Lemma sum_app t k l l' : line_sum bt bc t k (l ++ l') = line_sum bt bc t k l + line_sum bt bc t k l'.
Proof. unfold line_sum. rewrite filter_app, map_app. apply zsum_app. Qed.
Lemma no_line t k l : has_line bt bc t k l = false -> line_sum bt bc t k l = 0.
Proof.
  intros H. unfold line_sum. rewrite filter_none; [reflexivity|]. intros x I. destruct (belongs bt bc t k x) eqn:E; [|reflexivity].
  exfalso. unfold has_line in H. assert (existsb (belongs bt bc t k) l = true) by (apply existsb_exists; eauto). congruence.
Qed.
Lemma rep_no_sum ts V K t k : sums ts V K -> has_line bt bc t k K = false -> line_sum bt bc t k V = 0.
Proof. intros (_ & I & _) H. apply no_line. destruct (has_line bt bc t k V) eqn:E; [|reflexivity]. apply I in E. congruence. Qed.
Lemma merge_rep ts ts2 V K V2 K2 : (bt <> None \/ bc = true) -> sums ts V K -> sums ts2 V2 K2 ->
  exists ts', merge_totals conv false ts ts2 = Ok ts' /\ sums ts' (V ++ V2) (K ++ K2).
Proof.
  intros Hagg R R2. assert (R' := R). assert (R2' := R2). destruct R as (S1 & I1 & V1), R2 as (S2 & I2 & V2').
  destruct (merge_spec false ts ts2 Hagg S1 S2) as (ts' & E & S' & V'). exists ts'. split; [exact E|]. split; [exact S'|]. split.
  - intros t k. rewrite !has_app, !orb_true_iff. intros [H|H]; auto.
  - intros t k. rewrite V', V1, V2', has_app, sum_app. destruct (has_line bt bc t k K) eqn:E1, (has_line bt bc t k K2) eqn:E2; cbn [orb comb a_int].
    + reflexivity.
    + rewrite (rep_no_sum _ _ _ _ _ R2' E2). do 2 f_equal. lia.
    + rewrite (rep_no_sum _ _ _ _ _ R' E1). do 2 f_equal.
    + reflexivity.
Qed.
Lemma merge_keys_rep ts ts2 V K V2 K2 : (bt <> None \/ bc = true) -> sums ts V K -> sums ts2 V2 K2 ->
  exists ts', merge_totals conv true ts ts2 = Ok ts' /\ sums ts' V (K ++ K2).
Proof.
  intros Hagg R R2. assert (R' := R). destruct R as (S1 & I1 & V1), R2 as (S2 & I2 & V2').
  destruct (merge_spec true ts ts2 Hagg S1 S2) as (ts' & E & S' & V'). exists ts'. split; [exact E|]. split; [exact S'|]. split.
  - intros t k H. rewrite has_app, (I1 _ _ H). reflexivity.
  - intros t k. rewrite V', V1, V2', has_app. destruct (has_line bt bc t k K) eqn:E1, (has_line bt bc t k K2) eqn:E2; cbn [orb comb]; try reflexivity.
    rewrite (rep_no_sum _ _ _ _ _ R' E1). reflexivity.
Qed.
Lemma find_self l c : times_up l -> In c l -> List.find (fun x => c_time x =? c_time c) l = Some c.
Proof.
  intros U I. apply in_split in I as (l1 & l2 & ->). apply up_app in U as (_ & _ & U). rewrite find_app, find_miss.
  - cbn. rewrite Z.eqb_refl. reflexivity.
  - apply Forall_forall. intros x I. specialize (U x c I (or_introl eq_refl)). lia.
Qed.
Lemma cell_has c : cell_ok bc com c -> exists k, cval bc k c <> None.
Proof.
  unfold cell_ok, value_in_cell. destruct bc.
  - intros (_ & Z' & _). destruct (c_cats c) as [|[k v] m]; [tauto|]. exists k. cbn [bget]. rewrite eqb_bytes_refl. discriminate.
  - intros ((a & -> & _) & _). exists []. discriminate.
Qed.
Lemma cell_slot ts V K c : sums ts V K -> In c (cells ts) -> exists e, In e K /\ period_of bt (e_date e) = c_time c.
Proof.
  intros ((_ & _ & (U & O) & _) & _ & L) I. rewrite Forall_forall in O. destruct (cell_has c (O c I)) as (k & Hk).
  specialize (L (c_time c) k). unfold amount_on in L. rewrite (find_self _ _ U I) in L. destruct (has_line bt bc (c_time c) k K) eqn:E; [|congruence].
  apply existsb_exists in E as (e & Ie & He). exists e. split; [exact Ie|]. unfold belongs in He. lia.
Qed.
Lemma empty_rep : sums (mkTts bt bc []) [] [].
Proof. repeat split; try constructor; try (intros _ ? []); auto. Qed.
Lemma belongs_self e t k : belongs bt bc t k e = (period_of bt (e_date e) =? t) && (if bc then eqb_bytes k (e_cat e) else true).
Proof. reflexivity. Qed.
Lemma line_sum1 t k e : line_sum bt bc t k [e] = if belongs bt bc t k e then eamt e else 0.
Proof. unfold line_sum. cbn [filter]. destruct (belongs bt bc t k e); cbn; unfold eamt; lia. Qed.
Lemma add_rep ts V e : sums ts V V -> a_com (e_qty e) = com -> (forall v, In v V -> period_of bt (e_date v) <= period_of bt (e_date e)) ->
  exists ts', tt_add conv ts (e_date e) (e_cat e) (e_qty e) = Ok ts' /\ sums ts' (V ++ [e]) (V ++ [e]).
Proof.
  intros R He Hp. assert (R' := R). destruct R as ((Bt & Bc & (U & O) & Z0) & _ & L). unfold tt_add. rewrite Bt.
  change (match bt with Some r => r (e_date e) | None => zero_time end) with (period_of bt (e_date e)). set (p := period_of bt (e_date e)) in *.
  assert (Le : forall c, In c (cells ts) -> c_time c <= p).
  { intros c I. destruct (cell_slot ts V V c R' I) as (v & Iv & <-). apply Hp, Iv. }
  assert (P0 : bt = None -> p = 0) by (intros E; unfold p; rewrite E; reflexivity).
  assert (Goal' : forall l, line_ok bc com l -> (forall c, In c l -> bt = None -> c_time c = 0) ->
    (forall t k, lval bc l t k = if belongs bt bc t k e then Some (mkAmount (line_sum bt bc t k V + eamt e) com) else lval bc (cells ts) t k) ->
    sums (with_cells ts l) (V ++ [e]) (V ++ [e])).
  { intros l Ol Zl Ll. split; [|split; [auto|]].
    - unfold timeline_ok, with_cells. cbn. repeat split; auto; apply Ol.
    - intros t k. unfold with_cells. cbn [cells]. rewrite Ll, L, has_app, sum_app, line_sum1. unfold has_line at 3. cbn [existsb]. rewrite orb_false_r.
      destruct (belongs bt bc t k e) eqn:E; [rewrite orb_true_r; reflexivity|]. rewrite orb_false_r. destruct (has_line bt bc t k V); [|reflexivity].
      do 2 f_equal. lia. }
  assert (New : (forall c, In c (cells ts) -> c_time c < p) -> sums (with_cells ts (cells ts ++ [cell_of ts p (e_cat e) (e_qty e)])) (V ++ [e]) (V ++ [e])).
  { intros Lt. set (n := cell_of ts p (e_cat e) (e_qty e)). assert (Tn : c_time n = p) by (unfold n, cell_of; destruct (by_cat ts); reflexivity).
    assert (On : cell_ok bc com n).
    { unfold n, cell_of, cell_ok. rewrite Bc. destruct bc; cbn; (split; [eauto|]); [|reflexivity]. split; [discriminate|]. split.
      - constructor; [intros []|constructor].
      - constructor; [exact He|constructor]. }
    apply Goal'.
    - split; [|apply Forall_app; auto]. apply up_app. split; [exact U|]. split; [constructor; [constructor|constructor]|].
      intros a b Ia [<-|[]]. rewrite Tn. auto.
    - intros c I E. apply in_app_iff in I as [I|[<-|[]]]; [auto|]. rewrite Tn. auto.
    - intros t k. rewrite lval_app, lval_cons, Tn. unfold belongs. fold p. destruct (Z.eqb_spec p t) as [E|E]; cbn [andb].
      + rewrite find_miss by (apply Forall_forall; intros c I; specialize (Lt c I); lia).
        assert (Ns : has_line bt bc t k V = false).
        { specialize (L t k). rewrite lval_miss in L by (apply Forall_forall; intros c I; specialize (Lt c I); lia).
          destruct (has_line bt bc t k V); [discriminate|reflexivity]. }
        rewrite (no_line _ _ _ Ns). unfold n, cell_of, value_in_cell. rewrite Bc. specialize (L t k). rewrite Ns in L. rewrite L.
        unfold eamt. destruct (e_qty e) as [i x] eqn:Eq. cbn in He. subst x. destruct bc; cbn [c_cats c_total bget].
        * destruct (eqb_bytes k (e_cat e)); reflexivity.
        * reflexivity.
      + change (lval bc [] t k) with (@None amount). unfold amount_on. destruct (List.find _ (cells ts)); reflexivity. }
  destruct (rev (cells ts)) as [|cur before] eqn:Er.
  { assert (E : cells ts = []) by (apply (f_equal (@rev cell)) in Er; rewrite rev_involutive in Er; exact Er).
    eexists. split; [reflexivity|]. rewrite E in New. apply New. intros ? []. }
  assert (E : cells ts = rev before ++ [cur]) by (apply (f_equal (@rev cell)) in Er; rewrite rev_involutive in Er; exact Er).
  rewrite E in U, O. apply up_app in U as (Ub & _ & Ubc). apply Forall_app in O as [Ob Oc]. apply Forall_cons_iff in Oc as [Oc _].
  assert (Icur : In cur (cells ts)) by (rewrite E; apply in_app_iff; right; left; reflexivity).
  destruct (Z.eqb_spec (c_time cur) p) as [Ep|Ep].
  2:{ eexists. split; [reflexivity|]. apply New. intros c I. assert (H := Le cur Icur). rewrite E in I. apply in_app_iff in I as [I|[<-|[]]]; [|lia].
      specialize (Ubc c cur I (or_introl eq_refl)). lia. }
  assert (Add : exists c', add_to_cell conv ts cur (e_cat e) (e_qty e) = Ok c' /\ c_time c' = p /\ cell_ok bc com c' /\
    forall k, cval bc k c' = if belongs bt bc p k e then Some (mkAmount (line_sum bt bc p k V + eamt e) com) else cval bc k cur).
  { assert (Lc : forall k, cval bc k cur = if has_line bt bc p k V then Some (mkAmount (line_sum bt bc p k V) com) else None).
    { intros k. rewrite <- L, E, lval_app, lval_cons, Ep, Z.eqb_refl. rewrite find_miss; [reflexivity|].
      apply Forall_forall. intros c I. specialize (Ubc c cur I (or_introl eq_refl)). lia. }
    unfold add_to_cell. rewrite Bc. unfold belongs. fold p. unfold cell_ok, value_in_cell in *. destruct bc; rewrite Z.eqb_refl; cbn [andb].
    - destruct Oc as (T & Z' & N & F). rewrite (Lc (e_cat e)). destruct (has_line bt true p (e_cat e) V) eqn:Eh.
      + rewrite add_in_same by exact He. cbn [bind]. eexists. split; [reflexivity|]. cbn [c_time c_total c_cats]. split; [exact Ep|]. split.
        * repeat split; [exact T|apply bset_nonnil|apply bset_nodup, N|apply bset_com; auto].
        * intros k. rewrite bget_set. destruct (eqb_bytes k (e_cat e)) eqn:Ek; [|reflexivity]. apply eqb_bytes_iff in Ek. subst k. reflexivity.
      + eexists. split; [reflexivity|]. cbn [c_time c_total c_cats]. split; [exact Ep|]. split.
        * repeat split; [exact T|apply bset_nonnil|apply bset_nodup, N|apply bset_com; auto].
        * intros k. rewrite bget_set. destruct (eqb_bytes k (e_cat e)) eqn:Ek; [|reflexivity]. apply eqb_bytes_iff in Ek. subst k.
          assert (Hs : line_sum bt true p (e_cat e) V = 0).
          { unfold line_sum. rewrite filter_none; [reflexivity|]. intros x I. destruct (belongs bt true p (e_cat e) x) eqn:Eb; [|reflexivity].
            exfalso. assert (has_line bt true p (e_cat e) V = true) by (apply existsb_exists; eauto). congruence. }
          rewrite Hs. unfold eamt. destruct (e_qty e) as [i x]. cbn in *. congruence.
    - destruct Oc as ((a & T & Ca) & Cc). rewrite T. rewrite add_in_same by congruence. cbn [bind]. eexists. split; [reflexivity|].
      cbn [c_time c_total c_cats]. split; [exact Ep|]. split; [split; [eexists; split; [reflexivity|exact Ca]|exact Cc]|].
      intros k. specialize (Lc k). rewrite T in Lc. destruct (has_line bt false p k V); [|discriminate]. injection Lc as ->. reflexivity. }
  destruct Add as (c' & Ea & Tc' & Oc' & Vc'). rewrite Ea. cbn [bind]. eexists. split; [reflexivity|]. apply Goal'.
  - split; [|apply Forall_app; auto]. apply up_app. split; [exact Ub|]. split; [constructor; [constructor|constructor]|].
    intros a b Ia [<-|[]]. rewrite Tc', <- Ep. apply Ubc; [exact Ia|left; reflexivity].
  - intros c I E0. apply in_app_iff in I as [I|[<-|[]]]; [|rewrite Tc'; auto]. apply Z0; [exact E0|]. rewrite E. apply in_app_iff. auto.
  - intros t k. rewrite E, !lval_app, !lval_cons, Tc', Ep. destruct (Z.eqb_spec p t) as [Et|Et].
    + subst t. rewrite find_miss; [apply Vc'|]. apply Forall_forall. intros c I. specialize (Ubc c cur I (or_introl eq_refl)). lia.
    + unfold belongs. fold p. destruct (Z.eqb_spec p t); [tauto|]. reflexivity.
Qed.
Lemma add_all_rep : reducer_ok bt -> forall es ts V, sums ts V V -> entries_in_order (V ++ es) -> entries_in com es ->
  exists ts', tt_add_all conv ts es = Ok ts' /\ sums ts' (V ++ es) (V ++ es).
Proof.
  intros Hr. induction es as [|[[d k] q] es IH]; intros ts V R So F; cbn [tt_add_all].
  - rewrite app_nil_r. eauto.
  - apply Forall_cons_iff in F as [F1 F2]. destruct (add_rep ts V (d, k, q) R F1) as (ts' & E & R').
    { intros v Iv. assert (Hd : e_date v <= d).
      { clear - So Iv. induction V as [|x V IH]; [destruct Iv|]. cbn [app] in So. inversion So as [|? ? S1 S2]; subst.
        destruct Iv as [->|Iv]; [|auto]. rewrite Forall_forall in S2. apply (S2 (d, k, q)). apply in_app_iff. right. left. reflexivity. }
      cbn [e_date fst]. unfold period_of. unfold reducer_ok in Hr. destruct bt; [apply Hr, Hd|lia]. }
    cbn [e_date e_cat e_qty fst snd] in E. rewrite E. cbn [bind]. destruct (IH ts' (V ++ [(d, k, q)]) R') as (ts2 & E2 & R2).
    + rewrite <- app_assoc. exact So.
    + exact F2.
    + exists ts2. split; [exact E2|]. rewrite <- app_assoc in R2. exact R2.
Qed.
End One.
