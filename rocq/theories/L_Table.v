(** The table of an aggregated register: the same cells as text, CSV and JSON. *)
From Coq Require Import Sorted Permutation.
From Verif Require Import Base M_Amount M_Parser M_Names M_Ledger M_Report M_Json M_Output S_Decimal S_Amount S_Report S_Names S_Books S_Output
  L_Dec L_Sort L_Names L_Amount L_Tree L_Totals L_Propagate L_Aggregate L_Output L_Output2 L_Printed.
Local Open Scope Z_scope.

(** the text of an amount *)
Definition txt (a : amount) : bytes := match string_amount a with Ok s => s | _ => [] end.
Lemma txt_ok a : (c_dec (a_com a) <= 50)%nat -> string_amount a = Ok (txt a) /\ shows_amount (txt a) a.
Proof. intros H. destruct (amount_text a H) as (s & F & S & _). unfold txt, string_amount. rewrite F. split; [reflexivity|exact S]. Qed.
Lemma txt_width a : printable a -> width a (c_dec (a_com a)) = Ok (List.length (txt a)).
Proof. intros H. destruct (amount_width a H) as (s & F & _ & _ & W). unfold txt, string_amount. rewrite F. exact W. Qed.
Lemma max_amounts_ok com : forall l, (forall x, In x l -> a_com x = com /\ printable x) ->
  exists w, max_amounts (c_dec com) l = Ok w /\ forall x, In x l -> (List.length (txt x) <= w)%nat.
Proof.
  induction l as [|x l IH]; intros H; cbn [max_amounts]; [exists O; split; [reflexivity|intros x []]|]. destruct (H x (or_introl eq_refl)) as [C P].
  assert (W := txt_width x P). rewrite C in W. rewrite W. cbn [bind]. destruct IH as (w & -> & L); [intros y I; apply H; right; exact I|]. cbn [bind].
  eexists. split; [reflexivity|]. intros y [<- |I]; [lia|specialize (L y I); lia].
Qed.
Lemma res_all_map {A C} (f : A -> res C) g l : (forall x, In x l -> f x = Ok (g x)) -> res_all f l = Ok (map g l).
Proof. induction l as [|x l IH]; intros H; [reflexivity|]. cbn [res_all map]. rewrite (H x (or_introl eq_refl)). cbn [bind]. rewrite IH by (intros y I; apply H; right; exact I). reflexivity. Qed.

Section Table.
Context (bt : option (Z -> Z)) (bc : bool) (com : commodity).
Hypothesis Hagg : bt <> None \/ bc = true.
Hypothesis Hred : reducer_ok bt.
Hypothesis Hdec : (c_dec com <= 50)%nat.
Notation column := (column bt bc com).
Notation hasp := (hasp bt).
Notation cat_ok := (cat_ok bc).

Lemma in_cell_amounts c x : cell_ok bc com c -> (In x (cell_amounts c) <-> exists k, value_in_cell bc k c = Some x).
Proof.
  unfold cell_ok, cell_amounts, value_in_cell. destruct bc.
  - intros (-> & _ & N & _). split.
    + intros I. apply in_map_iff in I as ((k & y) & <- & I). exists k. apply L_Output2.bget_in; auto.
    + intros (k & B). apply L_Output2.bget_some_in in B. exact (in_map snd _ _ B).
  - intros ((a & -> & _) & _). cbn [In]. split; [intros [<- |[]]; exists []; reflexivity|intros (_ & [= ->]); left; reflexivity].
Qed.
Lemma column_value ts K g c k x : column ts K g -> In c (cells ts) -> value_in_cell bc k c = Some x ->
  has_line bt bc (c_time c) k K = true /\ x = mkAmount (g (c_time c) k) com.
Proof.
  intros ((_ & _ & (U & _) & _) & L) I V. specialize (L (c_time c) k). unfold amount_on in L. rewrite (find_self _ _ U I), V in L.
  destruct (has_line bt bc (c_time c) k K); [|discriminate]. injection L as ->. auto.
Qed.
Lemma column_width_ok ts K g : column ts K g -> cells ts <> [] ->
  (forall t k, has_line bt bc t k K = true -> printable (mkAmount (g t k) com)) ->
  exists w, column_width ts = Ok w /\ forall t k, has_line bt bc t k K = true -> (List.length (txt (mkAmount (g t k) com)) <= w)%nat.
Proof.
  intros C Hne Hp. assert (C' := C). destruct C' as ((Et & Eb & (U & O) & Z0) & L).
  destruct (max_amounts_ok com (flat_map cell_amounts (cells ts))) as (w & Ew & Lw).
  { intros x I. apply in_flat_map in I as (c & Ic & I). rewrite Forall_forall in O. apply (in_cell_amounts c x (O c Ic)) in I as (k & V).
    destruct (column_value ts K g c k x C Ic V) as [H ->]. split; [reflexivity|apply Hp, H]. }
  exists w. split.
  - unfold column_width. destruct (cells ts) as [|c0 l] eqn:El; [contradiction|]. rewrite <- El in *.
    assert (Fc : first_commodity (cells ts) = Some com).
    { rewrite El. cbn [first_commodity]. rewrite (cell_com bc com c0); [reflexivity|]. rewrite Forall_forall in O. apply O. rewrite El. left; reflexivity. }
    rewrite Fc, Et. destruct bt as [r|] eqn:Ebt; [exact Ew|]. destruct (up_one _ U (Z0 eq_refl)) as [E|(c & E)]; [congruence|]. rewrite E in *. cbn [last_cell rev app flat_map] in *.
    rewrite app_nil_r in Ew. unfold cell_amounts in Ew. assert (Oc := O). rewrite Forall_forall in Oc. specialize (Oc c (or_introl eq_refl)). unfold cell_ok in Oc.
    destruct Hagg as [Hx|Hb]; [congruence|]. rewrite Hb in Oc. destruct Oc as (T & _). rewrite T in Ew. exact Ew.
  - intros t k H. specialize (L t k). rewrite H in L. unfold amount_on in L. destruct (List.find (fun c => c_time c =? t) (cells ts)) as [c|] eqn:F; [|discriminate].
    apply find_some in F as [Ic _]. apply Lw, in_flat_map. exists c. split; [exact Ic|]. rewrite Forall_forall in O. apply in_cell_amounts; [apply O, Ic|]. exists k. exact L.
Qed.

Context (m : atotals) (order : list (option bytes)) (K : list entry) (g : option bytes -> Z -> bytes -> Z).
Hypothesis Hne : order <> [].
Hypothesis Hcol : forall a, In a order -> exists ts, aget a m = Some ts /\ column ts K (g a).
Hypothesis Hcat : bc = true -> Forall (fun e => e_cat e <> []) K.
Hypothesis HK : K <> [].
Hypothesis Hprint : forall a t k, In a order -> has_line bt bc t k K = true -> printable (mkAmount (g a t k) com).

Lemma column_cells ts ga : column ts K ga -> cells ts <> [].
Proof.
  intros C E. destruct K as [|e K']; [contradiction|]. destruct C as (_ & L). specialize (L (period_of bt (e_date e)) (e_cat e)). rewrite E in L. cbn in L.
  unfold belongs in L. rewrite Z.eqb_refl in L. cbn [andb] in L. destruct bc; [rewrite L_Resolve.eqb_bytes_refl in L|]; cbn in L; discriminate.
Qed.
(** ** widths *)
Lemma column_widths_ok label : forall l, incl l order -> exists ws, column_widths label m l = Ok ws /\
  Forall2 (fun a w => (List.length (label a) <= w)%nat /\ forall t k, has_line bt bc t k K = true -> (List.length (txt (mkAmount (g a t k) com)) <= w)%nat) l ws.
Proof.
  induction l as [|a l IH]; intros I; cbn [column_widths]; [exists []; split; [reflexivity|constructor]|].
  destruct (Hcol a (I a (or_introl eq_refl))) as (ts & -> & C). destruct (column_width_ok ts K (g a) C (column_cells ts _ C)) as (w & -> & Lw); [intros t k H; apply Hprint; [apply I; left; reflexivity|exact H]|].
  cbn [bind]. destruct IH as (ws & -> & F); [intros b Ib; apply I; right; exact Ib|]. cbn [bind]. eexists. split; [reflexivity|]. constructor; [|exact F].
  split; [lia|]. intros t k H. specialize (Lw t k H). lia.
Qed.
Lemma category_width_bound ts c k : In c (cells ts) -> In k (map fst (c_cats c)) -> (List.length k <= category_width ts)%nat.
Proof.
  intros Ic Ik. unfold category_width. assert (J : In k (flat_map (fun c => map fst (c_cats c)) (cells ts))) by (apply in_flat_map; eauto).
  induction (flat_map (fun c => map fst (c_cats c)) (cells ts)) as [|x l IH]; [destruct J|]. cbn [fold_right]. destruct J as [-> |J]; [lia|specialize (IH J); lia].
Qed.
Lemma category_width_zero ts ga : column ts K ga -> (category_width ts =? 0)%nat = negb bc.
Proof.
  intros C. assert (C' := C). destruct C' as ((_ & _ & (_ & O) & _) & _). rewrite Forall_forall in O. destruct (bool_dec bc true) as [Hb|Hb].
  - rewrite Hb. cbn [negb]. apply Nat.eqb_neq. destruct (cells ts) as [|c l] eqn:El; [destruct (column_cells ts _ C El)|].
    assert (Ic : In c (cells ts)) by (rewrite El; left; reflexivity). specialize (O c (or_introl eq_refl)). unfold cell_ok in O. rewrite Hb in O. destruct O as (_ & Nn & N & _).
    destruct (c_cats c) as [|[k x] r] eqn:Ec; [contradiction|]. assert (Ik : In k (map fst (c_cats c))) by (rewrite Ec; left; reflexivity).
    pose proof (category_width_bound ts c k Ic Ik) as W. assert (V : value_in_cell bc k c = Some x) by (unfold value_in_cell; rewrite Hb, Ec; cbn [bget]; rewrite L_Resolve.eqb_bytes_refl; reflexivity).
    destruct (column_value ts K ga c k x C Ic V) as [H _]. apply existsb_exists in H as (e & Ie & He). unfold belongs in He. rewrite Hb in He. apply andb_prop in He as [_ He].
    apply eqb_bytes_iff in He. subst k. specialize (Hcat Hb). rewrite Forall_forall in Hcat. specialize (Hcat e Ie). destruct (e_cat e); [contradiction|cbn [List.length] in W; lia].
  - apply not_true_is_false in Hb. rewrite Hb in *. cbn [negb]. apply Nat.eqb_eq. unfold category_width.
    assert (E : flat_map (fun c => map fst (c_cats c)) (cells ts) = []); [|rewrite E; reflexivity].
    induction (cells ts) as [|c l IH]; [reflexivity|]. cbn [flat_map]. rewrite IH by (intros x I; apply O; right; exact I). specialize (O c (or_introl eq_refl)). unfold cell_ok in O. rewrite (proj2 O). reflexivity.
Qed.
(** ** cells of the table *)
Definition pads (ws : list nat) (l : list bytes) : list bytes := map (fun x => padl (fst x) (snd x)) (combine ws l).
Lemma text_amounts_ok i t k : forall l ws, incl l order -> List.length ws = List.length l ->
  (forall a, In a l -> exists ts, aget a m = Some ts /\ column ts K (g a) /\ nth_error (map c_time (cells ts)) i = Some t) ->
  has_line bt bc t k K = true -> cat_ok k ->
  text_amounts hasp m l ws i t k = Ok (pads ws (map (fun a => txt (mkAmount (g a t k) com)) l)).
Proof.
  induction l as [|a l IH]; intros [|w ws] Hi Hw H Hl Hk; try discriminate; [reflexivity|]. cbn [text_amounts].
  destruct (H a (or_introl eq_refl)) as (ts & Ea & C & Et). rewrite Ea.
  destruct (nth_error (cells ts) i) as [c|] eqn:En; [|apply nth_error_None in En; rewrite nth_error_map in Et; rewrite (proj2 (nth_error_None _ _) En) in Et; discriminate].
  assert (Tc : c_time c = t) by (rewrite nth_error_map, En in Et; injection Et as ->; reflexivity).
  assert (Ic : In c (cells ts)) by (eapply nth_error_In; exact En).
  assert (Ex : (if hasp then Some c else last_cell (cells ts)) = Some c).
  { unfold L_Aggregate.hasp. destruct bt as [r|] eqn:Ebt; [reflexivity|]. destruct C as ((_ & _ & (U & _) & Z0) & _).
    destruct (up_one _ U (Z0 eq_refl)) as [E|(c' & E)]; rewrite E in *; [destruct Ic|]. destruct Ic as [-> |[]]. reflexivity. }
  rewrite Ex. rewrite Tc, Z.eqb_refl. cbn [negb]. rewrite andb_false_r.
  assert (Ha : amount_at c k = Some (mkAmount (g a t k) com)).
  { rewrite <- Tc in *. rewrite <- (column_cell bt bc com ts K (g a) c k C Ic Hl). unfold amount_at, value_in_cell, L_Aggregate.cat_ok in *. destruct bc.
    - destruct k; [contradiction|reflexivity].
    - subst k. reflexivity. }
  rewrite Ha. destruct (txt_ok (mkAmount (g a t k) com) Hdec) as [Tx _]. unfold string_amount in Tx. rewrite (star_amount_ok w _ _ Tx). cbn [bind].
  rewrite IH; [reflexivity|intros b Ib; apply Hi; right; exact Ib|cbn in Hw; lia|intros b Ib; apply H; right; exact Ib|exact Hl|exact Hk].
Qed.
Context (ptext : Z -> bytes) (pw : nat).
Hypothesis Hpw : bt <> None -> (0 < pw)%nat /\ forall t k, has_line bt bc t k K = true -> List.length (ptext t) = pw.
Definition rowtext (r : Z * bytes * list amount) : list bytes :=
  let '(t, k, xs) := r in (if hasp then [ptext t] else []) ++ (if bc then [k] else []) ++ map txt xs.
Lemma string_rows_ok label : exists rs, rows m order = Ok rs /\
  string_rows ptext label m order = Ok (((if hasp then [B "Date"] else []) ++ (if bc then [B "Category"] else []) ++ map label order) :: map rowtext rs) /\
  forall t k xs, In (t, k, xs) rs -> xs = map (fun a => mkAmount (g a t k) com) order.
Proof.
  destruct (rows_spec bt bc com Hagg Hred m order K g Hne Hcol Hcat) as (l & El & _). exists (grid com order g l). split; [exact El|].
  assert (Gr : forall t k xs, In (t, k, xs) (grid com order g l) -> xs = map (fun a => mkAmount (g a t k) com) order).
  { intros t k xs I. unfold grid in I. apply in_flat_map in I as (c & _ & I). apply in_map_iff in I as (k' & E & _). injection E as <- <- <-. reflexivity. }
  split; [|exact Gr]. unfold string_rows, first_col. destruct order as [|a0 order'] eqn:Eo; [contradiction|]. rewrite <- Eo in *.
  destruct (Hcol a0) as (f & Ef & Cf); [rewrite Eo; left; reflexivity|]. rewrite Ef. rewrite El. cbn [bind].
  assert (Eh : (match by_time f with Some _ => true | None => false end) = hasp) by (unfold L_Aggregate.hasp; destruct Cf as ((-> & _) & _); reflexivity). rewrite Eh.
  assert (Ebc : by_cat f = bc) by (destruct Cf as ((_ & -> & _) & _); reflexivity). rewrite Ebc.
  rewrite (res_all_map _ rowtext); [reflexivity|]. intros [[t k] xs] I. apply Gr in I. subst xs. rewrite (res_all_map _ txt).
  - reflexivity.
  - intros x Ix. apply in_map_iff in Ix as (a & <- & _). apply txt_ok. exact Hdec.
Qed.
Lemma pads_app ws1 l1 ws2 l2 : List.length ws1 = List.length l1 -> pads (ws1 ++ ws2) (l1 ++ l2) = pads ws1 l1 ++ pads ws2 l2.
Proof. unfold pads. revert l1. induction ws1 as [|w ws1 IH]; intros [|x l1] H; try discriminate; [reflexivity|]. cbn [app combine map]. f_equal. apply IH. cbn in H. lia. Qed.
Definition headtext (label : option bytes -> bytes) : list bytes := (if hasp then [[]] else []) ++ (if bc then [[]] else []) ++ map label order.
Lemma forall2_map_l {A C D} (R : C -> D -> Prop) (f : A -> C) l r : Forall2 (fun a d => R (f a) d) l r -> Forall2 R (map f l) r.
Proof. intros F. induction F; constructor; auto. Qed.
Lemma forall2_flip {A C} (R : A -> C -> Prop) l r : Forall2 R l r -> Forall2 (fun c a => R a c) r l.
Proof. intros F. induction F; constructor; auto. Qed.
Lemma forall2_weaken {A C} (R R' : A -> C -> Prop) l r : (forall a c, R a c -> R' a c) -> Forall2 R l r -> Forall2 R' l r.
Proof. intros H F. induction F; constructor; auto. Qed.
Lemma print_totals_ok label : exists rs ws, rows m order = Ok rs /\
  print_totals ptext label m order = Ok (table_text (map (pads ws) (headtext label :: map rowtext rs))) /\
  forall r, In r (headtext label :: map rowtext rs) -> Forall2 (fun w s => (rune_count s <= w)%nat) ws r.
Proof.
  destruct (rows_spec bt bc com Hagg Hred m order K g Hne Hcol Hcat) as (l & El & f & a0 & Ia0 & Cf & <- & Ef). exists (grid com order g (cells f)).
  destruct (column_widths_ok label order (incl_refl _)) as (ws & Ew & Fw). assert (Lws : List.length ws = List.length order) by (symmetry; exact (forall2_len _ _ _ Fw)).
  set (cw := category_width f). assert (Hcw : (cw =? 0)%nat = negb bc) by exact (category_width_zero f _ Cf).
  set (pw' := if hasp then pw else O).
  assert (Ep : period_width ptext f = Ok pw').
  { unfold period_width, pw', L_Aggregate.hasp. assert (Eb : by_time f = bt) by (destruct Cf as ((-> & _) & _); reflexivity). rewrite Eb.
    assert (Cn := column_cells f _ Cf). assert (Ct := fun t => column_times bt bc com f K _ t Cf). assert (Hp := Hpw). clear - Cn Ct Hp. destruct bt as [r|]; [|reflexivity].
    destruct (cells f) as [|c l]; [destruct (Cn eq_refl)|]. destruct (Hp ltac:(discriminate)) as [_ H]. f_equal.
    destruct (proj1 (Ct (c_time c))) as (k & Hk); [left; reflexivity|]. exact (H _ k Hk). }
  assert (Hpz : (pw' =? 0)%nat = negb hasp).
  { assert (Hp := Hpw). clear - Hp. unfold pw', L_Aggregate.hasp. destruct bt as [r|]; [|reflexivity]. destruct (Hp ltac:(discriminate)) as [H _]. apply Nat.eqb_neq. lia. }
  set (W := (if hasp then [pw] else []) ++ (if bc then [cw] else []) ++ ws).
  exists W. split; [exact El|].
  assert (Wp : forall t k (xs : list bytes), pads W ((if hasp then [t] else []) ++ (if bc then [k] else []) ++ xs) =
     (if (pw' =? 0)%nat then [] else [padl pw' t]) ++ (if (cw =? 0)%nat then [] else [padl cw k]) ++ pads ws xs).
  { intros t k xs. unfold W. rewrite Hpz, Hcw. rewrite !pads_app by (destruct hasp, bc; reflexivity). unfold pw'. destruct hasp, bc; reflexivity. }
  split.
  - unfold print_totals, first_col. assert (Eo : match order with [] => None | a :: _ => aget a m end = Some f).
    { destruct order; [contradiction|]. exact Ef. }
    rewrite Eo. rewrite Ep. cbn [bind]. fold cw. rewrite Hpz, Hcw. 
    assert (Nz : negb hasp && negb bc = false) by (clear - Hagg; unfold L_Aggregate.hasp; destruct bt; [reflexivity|]; destruct Hagg as [H| ->]; [congruence|reflexivity]).
    rewrite Nz. rewrite Ew. cbn [bind].
    assert (G : forall l pre, cells f = pre ++ l -> text_rows ptext pw' cw m order ws (List.length pre) l = Ok (map (pads W) (map rowtext (grid com order g l)))).
    { induction l as [|c l IH]; intros pre Epre; cbn [text_rows]; [reflexivity|].
      assert (Ic : In c (cells f)) by (rewrite Epre; apply in_app_iff; right; left; reflexivity).
      rewrite (res_all_map _ (fun k => pads W (rowtext (c_time c, k, map (fun a => mkAmount (g a (c_time c) k) com) order)))).
      2:{ intros k Ik. apply (categories_spec bt bc com Hagg f K (g a0) c k Cf Ic) in Ik as [Hl Hk]. rewrite Hpz at 1. rewrite negb_involutive. rewrite (text_amounts_ok (List.length pre) (c_time c) k order ws (incl_refl _) Lws).
        - cbn [bind]. unfold rowtext. rewrite Wp. rewrite map_map. reflexivity.
        - intros a Ia. destruct (Hcol a Ia) as (ts & Ea & Ca). exists ts. split; [exact Ea|]. split; [exact Ca|].
          rewrite (columns_times bt bc com Hagg ts f K _ _ Ca Cf), Epre, map_app. rewrite nth_error_app2 by (rewrite map_length; lia). rewrite map_length, Nat.sub_diag. reflexivity.
        - exact Hl.
        - unfold L_Aggregate.cat_ok. destruct bc; [|auto]. apply existsb_exists in Hl as (e & Ie & He). unfold belongs in He. apply andb_prop in He as [_ He].
          apply eqb_bytes_iff in He. subst k. specialize (Hcat eq_refl). rewrite Forall_forall in Hcat. auto. }
      cbn [bind]. specialize (IH (pre ++ [c])). rewrite app_length, Nat.add_1_r in IH. rewrite IH by (rewrite Epre, <- app_assoc; reflexivity). cbn [bind].
      f_equal. unfold grid. cbn [flat_map]. rewrite !map_app, !map_map. reflexivity. }
    pose proof (G (cells f) [] eq_refl) as G0. cbn [List.length] in G0. rewrite G0. cbn [bind]. f_equal. unfold table_text. cbn [map flat_map]. f_equal. unfold text_line, table_line. f_equal. f_equal.
    unfold headtext. rewrite Wp, Hpz, Hcw. f_equal. f_equal. unfold pads.
    clear. revert ws. induction order as [|a l IH]; intros [|w ws]; try reflexivity. cbn [combine map]. f_equal. apply IH.
  - assert (Rl : forall t k xs, (hasp = true -> (rune_count t <= pw)%nat) -> (bc = true -> (rune_count k <= cw)%nat) -> Forall2 (fun w s => (rune_count s <= w)%nat) ws xs ->
       Forall2 (fun w s => (rune_count s <= w)%nat) W ((if hasp then [t] else []) ++ (if bc then [k] else []) ++ xs)).
    { intros t k xs H1 H2 H3. unfold W. destruct hasp, bc; cbn [app]; repeat constructor; auto. }
    intros r [<- |I].
    + unfold headtext. apply Rl; [intros _; cbn; lia|intros _; cbn; lia|]. apply forall2_flip, forall2_map_l. eapply forall2_weaken; [|exact Fw].
      intros a w [H _]. eapply Nat.le_trans; [apply rune_count_le|exact H].
    + apply in_map_iff in I as ([[t k] xs] & <- & I). unfold grid in I. apply in_flat_map in I as (c & Ic & I). apply in_map_iff in I as (k' & E & Ik). injection E as <- <- <-.
      assert (Ik' := Ik). apply (categories_spec bt bc com Hagg f K (g a0) c _ Cf Ic) in Ik as [Hl Hk]. unfold rowtext. apply Rl.
      * intros Hh. assert (Nb : bt <> None) by (unfold L_Aggregate.hasp in Hh; destruct bt; [discriminate|discriminate Hh]). destruct (Hpw Nb) as [_ Hp]. rewrite <- (Hp _ _ Hl). apply rune_count_le.
      * intros Hb. eapply Nat.le_trans; [apply rune_count_le|]. apply (category_width_bound f c); [exact Ic|]. unfold categories in Ik'.
        destruct (c_cats c) as [|x y] eqn:Ec.
        -- exfalso. destruct Cf as ((_ & _ & (_ & O) & _) & _). rewrite Forall_forall in O. specialize (O c Ic). unfold cell_ok in O. rewrite Hb in O. destruct O as (_ & N & _). congruence.
        -- rewrite <- Ec in *. eapply Permutation_in; [symmetry; apply sort_strings_perm|exact Ik'].
      * rewrite map_map. apply forall2_flip, forall2_map_l. eapply forall2_weaken; [|exact Fw]. intros a w [_ H]. eapply Nat.le_trans; [apply rune_count_le|]. apply H, Hl.
Qed.
End Table.
