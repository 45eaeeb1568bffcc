(** Lemmas: cumulative totals; sums of whole reports. *)
From Coq Require Import Sorted Permutation.
From Verif Require Import Base M_Amount M_Parser M_Names M_Ledger M_Report S_Amount S_Report S_Names S_Books L_Dec L_Sort L_Names L_Amount L_Registers L_Resolve L_Resolve2 L_Load L_Tree L_Tree2 L_Balance L_Totals L_Propagate L_Aggregate.

Definition tot (c : cell) : Z := match c_total c with Some a => a_int a | None => 0 end.
Section Cumulative.
Context (conv : conversion) (bt : option (Z -> Z)) (com : commodity).

Lemma cumulative_cells_spec : forall l cum, a_com cum = com -> line_ok false com l ->
  exists l', cumulative_cells conv cum l = Ok l' /\ map c_time l' = map c_time l /\ Forall (cell_ok false com) l' /\
    forall t, In t (map c_time l) -> forall k, amount_on false l' t k = Some (mkAmount (a_int cum + zsum (map tot (filter (fun c => c_time c <=? t) l))) com).
Proof.
  induction l as [|c l IH]; intros cum Hc [U O]; cbn [cumulative_cells].
  - exists []. repeat split; [constructor|]. intros t [].
  - apply Forall_cons_iff in O as [Oc O]. apply up_cons in U as [U Uc]. destruct Oc as ((a & T & Ca) & Cc). rewrite T.
    rewrite add_in_same by congruence. cbn [bind]. set (cum' := mkAmount _ _).
    destruct (IH cum') as (l' & E & M & O' & V); [exact Hc|split; auto|]. rewrite E. cbn [bind]. eexists. split; [reflexivity|]. cbn [map c_time].
    split; [f_equal; exact M|]. split.
    { constructor; [|exact O']. split; [exists cum'; split; [reflexivity|exact Hc]|exact Cc]. }
    intros t I k. rewrite lval_cons. cbn [c_time filter]. destruct (Z.eqb_spec (c_time c) t) as [Et|Et].
    + subst t. rewrite Z.leb_refl. cbn [map]. rewrite zsum_cons. rewrite filter_none by (intros x J; specialize (Uc x J); lia). cbn [map].
      unfold value_in_cell, tot. cbn [c_total]. rewrite T. unfold cum'. rewrite Hc. do 2 f_equal. cbn. lia.
    + destruct I as [I|I]; [tauto|]. rewrite (V t I k). apply in_map_iff in I as (x & Ex & J). specialize (Uc x J).
      replace (c_time c <=? t) with true by lia. cbn [map]. rewrite zsum_cons. unfold cum', tot at 2. rewrite T. cbn [a_int]. do 2 f_equal. lia.
Qed.
Lemma zsum_zero {A} (f : A -> Z) l : (forall x, In x l -> f x = 0) -> zsum (map f l) = 0.
Proof. induction l as [|a l IH]; intros H; cbn [map]; [reflexivity|]. rewrite zsum_cons, (H a (or_introl eq_refl)), IH; [lia|]. intros x I. apply H. right. exact I. Qed.
Lemma zsum_add {A} (f g : A -> Z) l : zsum (map (fun x => f x + g x) l) = zsum (map f l) + zsum (map g l).
Proof. induction l as [|a l IH]; cbn [map]; [reflexivity|]. rewrite !zsum_cons, IH. lia. Qed.
Lemma sum_indicator (p : Z) (v : Z) l : NoDup l -> zsum (map (fun t => if p =? t then v else 0) l) = if existsb (Z.eqb p) l then v else 0.
Proof.
  induction 1 as [|a l N1 N2 IH]; cbn [map existsb]; [reflexivity|]. rewrite zsum_cons, IH. destruct (Z.eqb_spec p a) as [->|E]; cbn [orb]; [|lia].
  assert (existsb (Z.eqb a) l = false) as ->; [|lia]. apply not_true_iff_false. intros H. apply existsb_exists in H as (x & I & H). replace x with a in I by lia. tauto.
Qed.
Lemma sum_over_times V : forall times, NoDup times ->
  zsum (map (fun t => line_sum bt false t [] V) times) = zsum (map eamt (filter (fun e => existsb (Z.eqb (period_of bt (e_date e))) times) V)).
Proof.
  intros times N. induction V as [|e V IH].
  - cbn. apply zsum_zero. reflexivity.
  - transitivity (zsum (map (fun t => (if period_of bt (e_date e) =? t then eamt e else 0) + line_sum bt false t [] V) times)).
    + f_equal. apply map_ext. intros t. change (e :: V) with ([e] ++ V). rewrite sum_app, line_sum1. unfold belongs. rewrite andb_true_r. reflexivity.
    + rewrite zsum_add, sum_indicator by exact N. rewrite IH. cbn [filter]. destruct (existsb _ times); cbn [map]; [rewrite zsum_cons|]; lia.
Qed.
Lemma cumulative_spec ts V K : bt <> None -> sums bt false com ts V K ->
  exists ts', make_cumulative conv ts = Ok ts' /\ column bt false com ts' K (fun t _ => sum_upto bt t V).
Proof.
  intros Hb S. assert (S' := S). destruct S as ((B1 & B2 & L & Z0) & I & A). unfold make_cumulative. rewrite B2.
  destruct (last_cell (cells ts)) as [c|] eqn:El.
  2:{ apply last_none in El. exists ts. split; [reflexivity|]. split; [repeat split; auto; apply L|]. intros t k. rewrite A.
      apply (sums_nil bt false com (or_introl Hb) ts V K S') in El. subst K. reflexivity. }
  assert (Oc : cell_ok false com c) by (destruct L as [_ O]; rewrite Forall_forall in O; apply O, last_some, El). rewrite (cell_com false com c Oc).
  destruct (cumulative_cells_spec (cells ts) (zero_amount com) eq_refl L) as (l' & E & M & O & V'). rewrite E. cbn [bind].
  exists (with_cells ts l'). split; [reflexivity|].
  assert (Ul : times_up l').
  { unfold times_up. assert (U := times_sorted _ (proj1 L)). rewrite <- M in U. clear - U. induction l' as [|x l' IH]; [constructor|].
    cbn [map] in U. inversion U as [|? ? U1 U2]; subst. constructor; [auto|]. apply Forall_forall. intros y Iy. rewrite Forall_forall in U2. apply U2, in_map, Iy. }
  split; [unfold timeline_ok, with_cells; cbn; repeat split; auto; tauto|].
  assert (C := sums_column bt false com ts V K S').
  intros t k. unfold with_cells. cbn [cells]. destruct (has_line bt false t k K) eqn:Eh.
  - assert (It : In t (map c_time (cells ts))) by (apply (column_times bt false com ts K _ t C); eauto).
    rewrite (V' t It k). do 2 f_equal. cbn [a_int zero_amount]. rewrite Z.add_0_l. unfold sum_upto. fold eamt. change (fun e => a_int (e_qty e)) with eamt.
    set (cs := filter (fun c => c_time c <=? t) (cells ts)).
    transitivity (zsum (map (fun t => line_sum bt false t [] V) (map c_time cs))).
    + rewrite map_map. f_equal. apply map_ext_in. intros x Ix. apply filter_In in Ix as [Ix _].
      assert (Hl : has_line bt false (c_time x) [] K = true).
      { destruct (proj1 (column_times bt false com ts K _ (c_time x) C) (in_map _ _ _ Ix)) as (k' & Hk'). exact Hk'. }
      pose proof (column_cell bt false com ts K _ x [] C Ix Hl) as Hx. unfold value_in_cell in Hx. unfold tot. rewrite Hx. reflexivity.
    + rewrite sum_over_times.
      2:{ unfold cs. apply filter_nodup. assert (U := times_sorted _ (proj1 L)). clear - U. induction U as [|a l H IH F]; constructor; [|exact IH].
          intros J. rewrite Forall_forall in F. specialize (F a J). lia. }
      do 2 f_equal. apply filter_ext_in. intros e Ie. destruct (Z.leb_spec (period_of bt (e_date e)) t) as [Le|Le].
      * apply existsb_exists. exists (period_of bt (e_date e)). split; [|apply Z.eqb_refl].
        assert (J : In (period_of bt (e_date e)) (map c_time (cells ts))).
        { apply (column_times bt false com ts K _ _ C). exists []. apply I. apply existsb_exists. exists e. split; [exact Ie|]. unfold belongs. rewrite Z.eqb_refl. reflexivity. }
        apply in_map_iff in J as (x & Ex & J). apply in_map_iff. exists x. split; [exact Ex|]. apply filter_In. split; [exact J|lia].
      * apply not_true_iff_false. intros H. apply existsb_exists in H as (x & J & H). apply in_map_iff in J as (y & <- & J).
        apply filter_In in J as [_ J]. lia.
  - apply lval_miss. apply Forall_forall. intros x Ix E0.
    assert (It : In t (map c_time l')) by (rewrite <- E0; apply in_map, Ix). rewrite M in It. apply (column_times bt false com ts K _ t C) in It as (k' & Hk').
    unfold has_line, belongs in *. congruence.
Qed.
End Cumulative.
