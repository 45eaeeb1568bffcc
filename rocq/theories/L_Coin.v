(** From the entries of the files to the registers. *)
From Coq Require Import Permutation Sorted.
From Verif Require Import Base M_Amount M_Date M_Names M_Tags M_Parser M_Ledger M_Report M_Database M_Coin S_Amount S_Books S_Report S_Coin L_Dec L_Amount L_Tree L_Balance L_Registers L_Resolve Properties_Tree Properties_Report.
Local Open Scope Z_scope.

Lemma value_resolved find comm conv L t x : resolved find comm conv L t x -> in_account_commodity find comm t ->
  Forall2 (fun s p => rp_qty (heap L p) = Some (mkAmount (value_of t s) (comm (rp_acc (heap L p))))) (t_postings t) (x_posts x).
Proof.
  intros (_ & _ & _ & _ & F & H & Hno) Hq.
  assert (Hin : forall s, In s (t_postings t) -> exists p, In p (x_posts x) /\ find (ps_account s) = Ok (rp_acc (heap L p))).
  { clear -F. induction F as [|s p ss ps (_ & _ & R & _) F IH]; intros s' I; [destruct I|]. destruct I as [<- |I]; [exists p; split; [left; reflexivity|exact R]|].
    destruct (IH _ I) as (q & Iq & E). exists q. split; [right; exact Iq|exact E]. }
  assert (G : forall s1 s2 p1 p2, t_postings t = s1 ++ s2 -> x_posts x = p1 ++ p2 -> List.length s1 = List.length p1 ->
            Forall2 (resolves find L (t_posted t)) s2 p2 -> Forall2 (fun s p => rp_qty (heap L p) = Some (mkAmount (value_of t s) (comm (rp_acc (heap L p))))) s2 p2).
  { intros s1 s2 p1 p2 E1 E2 El F2. revert s1 p1 E1 E2 El. induction F2 as [|s p s2 p2 R F2 IH]; intros s1 p1 E1 E2 El; constructor.
    - destruct R as (_ & _ & Rf & _ & (q & Eq & R) & _). unfold value_of. destruct (ps_quantity s) as [q'|] eqn:Es.
      + rewrite Eq, (R q' eq_refl). rewrite <- (Hq s q' _) by (try exact Rf; try exact Es; rewrite E1; apply in_elt). destruct q'; reflexivity.
      + set (c := comm (rp_acc (heap L p))). assert (Ip : In p (x_posts x)) by (rewrite E2; apply in_elt).
        assert (One : one_commodity comm L (x_posts x) c).
        { destruct (Forall_dec (fun p' => comm (rp_acc (heap L p')) = c) (fun p' => commodity_dec _ _) (x_posts x)) as [Y|No].
          - split; [rewrite E2; destruct p1; discriminate|]. rewrite Forall_forall in Y. exact Y.
          - exfalso. assert (M0 : missing (t_postings t) = O).
            { apply Hno. intros c' [_ Hc']. apply No. apply Forall_forall. intros p' I'. rewrite (Hc' p' I'). symmetry. apply Hc', Ip. }
            unfold missing in M0. apply length_zero_iff_nil in M0. assert (I : In s (filter (fun s => match ps_quantity s with None => true | _ => false end) (t_postings t))) by (apply filter_In; split; [rewrite E1; apply in_elt|rewrite Es; reflexivity]).
            rewrite M0 in I. exact I. }
        destruct (H c One) as (_ & _ & K). destruct (K s1 s s2 p1 p p2 E1 E2 El Es) as (sum & Ea & Ep).
        assert (Ew : written (t_postings t) = written (s1 ++ s2)).
        { rewrite E1. unfold written. rewrite !flat_map_app. cbn [flat_map]. rewrite Es. reflexivity. }
        rewrite Ep, Ew. rewrite add_all_same in Ea.
        2: { apply Forall_forall. intros q' J. unfold written in J. apply in_flat_map in J as (s' & Is & J). destruct (ps_quantity s') eqn:E'; [|destruct J]. destruct J as [<- |[]].
             assert (It : In s' (t_postings t)) by (rewrite E1; apply in_app_iff in Is as [I|I]; apply in_or_app; [left|right; right]; exact I).
             destruct (Hin s' It) as (p' & Ip' & Ef). rewrite (Hq s' _ _ It E' Ef). apply One, Ip'. }
        injection Ea as <-. unfold negated, zero_amount. reflexivity.
    - apply (IH (s1 ++ [s]) (p1 ++ [p])); [rewrite <- app_assoc; exact E1|rewrite <- app_assoc; exact E2|rewrite !app_length, El; reflexivity]. }
  exact (G [] _ [] _ eq_refl eq_refl eq_refl F).
Qed.

Lemma perm_filter {A} (f : A -> bool) l l' : Permutation l l' -> Permutation (filter f l) (filter f l').
Proof.
  induction 1 as [|x l l' P IH|x y l|l l' l'' P1 IH1 P2 IH2]; cbn [filter]; [constructor| | |etransitivity; eassumption].
  - destruct (f x); [constructor|]; exact IH.
  - destruct (f x), (f y); try constructor; reflexivity.
Qed.
Lemma zsum_perm l l' : Permutation l l' -> zsum l = zsum l'.
Proof. unfold zsum. induction 1; cbn [fold_right]; lia. Qed.

Section Reg.
Context (find : bytes -> res bytes) (comm : bytes -> commodity) (conv : conversion) (rexm : bytes -> bytes -> bool) (L : ledger) (tx_of : nat -> rtx)
  (begin end_ : option Z) (tag payee : bytes).
Definition want_p (p : nat) : bool := in_range begin end_ (dates L p) && match payee with [] => true | _ => rexm payee (pi_desc (posting_info L tx_of p)) end
  && tag_ok rexm tag (posting_info L tx_of p).
Lemma want_resolved t x : resolved find comm conv L t x -> (forall p, In p (x_posts x) -> tx_of p = x) -> forall a, in_account_commodity find comm t ->
  quantities L (filter want_p (filter (fun p => eqb_bytes (rp_acc (heap L p)) a) (x_posts x))) =
    map (fun s => mkAmount (value_of t s) (comm a)) (filter (fun s => wanted rexm begin end_ tag payee t s && goes_to find a s) (t_postings t)).
Proof.
  intros R Ht a Hq. pose proof (value_resolved _ _ _ _ _ _ R Hq) as V. destruct R as (Ed & _ & Edesc & En & F & _).
  assert (G : forall ss ps, Forall2 (resolves find L (t_posted t)) ss ps -> Forall2 (fun s p => rp_qty (heap L p) = Some (mkAmount (value_of t s) (comm (rp_acc (heap L p))))) ss ps ->
    (forall p, In p ps -> tx_of p = x) -> quantities L (filter want_p (filter (fun p => eqb_bytes (rp_acc (heap L p)) a) ps)) =
      map (fun s => mkAmount (value_of t s) (comm a)) (filter (fun s => wanted rexm begin end_ tag payee t s && goes_to find a s) ss)).
  { clear F V Hq Ht. induction 1 as [|s p ss ps R F IH]; intros V Ht; [reflexivity|]. inversion V as [|? ? ? ? V1 V2]; subst.
    specialize (IH V2 (fun q I => Ht q (or_intror I))). specialize (Ht p (or_introl eq_refl)). destruct R as (Rd & _ & Rf & Rn & _).
    assert (E1 : goes_to find a s = eqb_bytes (rp_acc (heap L p)) a) by (unfold goes_to; rewrite Rf; reflexivity).
    assert (E2 : wanted rexm begin end_ tag payee t s = want_p p).
    { unfold wanted, want_p, posting_info, dates. rewrite Ht, Rd, Rn, Edesc, En. reflexivity. }
    cbn [filter]. rewrite E1, E2. destruct (eqb_bytes (rp_acc (heap L p)) a) eqn:Ea; [|rewrite andb_false_r; exact IH]. rewrite andb_true_r. cbn [filter].
    apply eqb_bytes_iff in Ea. destruct (want_p p); [|exact IH]. cbn [map]. rewrite <- IH. unfold quantities at 1. cbn [flat_map]. rewrite V1, Ea. reflexivity. }
  exact (G _ _ F V Ht).
Qed.
Lemma balance_amounts_ok ts xs a : Forall2 (resolved find comm conv L) ts xs -> (forall x p, In x xs -> In p (x_posts x) -> tx_of p = x) ->
  (forall t, In t ts -> in_account_commodity find comm t) ->
  in_date_order (dates L) (reg L a) -> Permutation (made_to L a xs) (reg L a) ->
  Forall (fun q => a_com q = comm a) (balance_amounts rexm L tx_of begin end_ tag payee a) /\
  zsum (map a_int (balance_amounts rexm L tx_of begin end_ tag payee a)) = posted_to find (wanted rexm begin end_ tag payee) ts a.
Proof.
  intros F Ht Hq Ho Hp. unfold balance_amounts. rewrite C69_balance_selection by exact Ho. change (fun p => in_range begin end_ (dates L p) &&
    match payee with [] => true | _ :: _ => rexm payee (pi_desc (posting_info L tx_of p)) end && tag_ok rexm tag (posting_info L tx_of p)) with want_p.
  change (Forall (fun q => a_com q = comm a) (quantities L (filter want_p (reg L a))) /\ zsum (map a_int (quantities L (filter want_p (reg L a)))) = posted_to find (wanted rexm begin end_ tag payee) ts a).
  assert (P : Permutation (quantities L (filter want_p (reg L a))) (quantities L (filter want_p (made_to L a xs)))) by (apply quantities_perm, perm_filter, Permutation_sym, Hp).
  assert (E : quantities L (filter want_p (made_to L a xs)) =
    flat_map (fun t => map (fun s => mkAmount (value_of t s) (comm a)) (filter (fun s => wanted rexm begin end_ tag payee t s && goes_to find a s) (t_postings t))) ts).
  { clear Hp P Ho. unfold made_to. induction F as [|t x ts xs R F IH]; [reflexivity|]. cbn [flat_map]. rewrite !filter_app, quantities_app.
    rewrite IH by (intros; eauto using in_cons). f_equal. apply want_resolved; [exact R| |]; intros; eauto using in_eq. }
  split.
  - eapply Permutation_Forall; [apply Permutation_sym, P|]. rewrite E. apply Forall_forall. intros q I. apply in_flat_map in I as (t & _ & I). apply in_map_iff in I as (s & <- & _). reflexivity.
  - rewrite (zsum_perm _ _ (Permutation_map a_int P)), E. unfold posted_to. f_equal. clear. induction ts as [|t ts IH]; [reflexivity|]. cbn [flat_map]. rewrite map_app, IH, map_map. reflexivity.
Qed.
End Reg.
