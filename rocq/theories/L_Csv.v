(** Values of the fields of a csv source. *)
From Verif Require Import Base M_Amount M_Writer M_Names M_Ledger M_Rules S_Rules M_Csv S_Csv L_Dec L_Regex L_Names L_Report.

Definition dollar : ascii := "$"%char.
(** ** templates *)
Definition part_tail (p : part) : bytes := match part_text p with _ :: t => t | [] => [] end.
Lemma part_tail_eq p : part_text p = dollar :: part_tail p.
Proof. destruct p; reflexivity. Qed.
Lemma template_join t : template_text t = join [dollar] (t_start t :: map part_tail (t_parts t)).
Proof.
  destruct t as [s ps]. unfold template_text. cbn [t_start t_parts]. revert s. induction ps as [|p ps IH]; intros s; cbn [flat_map map].
  - apply app_nil_r.
  - rewrite part_tail_eq. cbn [app]. change (join [dollar] (s :: part_tail p :: map part_tail ps)) with (s ++ dollar :: join [dollar] (part_tail p :: map part_tail ps)). rewrite <- IH. reflexivity.
Qed.
Lemma in_cons_not {A} (c d : A) l : ~ In c (d :: l) <-> d <> c /\ ~ In c l.
Proof. cbn. tauto. Qed.
Lemma direct_tail_no p : direct_part_ok p -> no dollar (part_tail p).
Proof.
  unfold no, dollar. destruct p as [d t|n t|t]; cbn -[In]; [|intros []|intros (_ & H & _); exact H]. intros [H1 H2]. apply in_cons_not. split; [|exact H2]. intros ->. discriminate.
Qed.
Lemma derived_tail_no p : derived_part_ok p -> no dollar (part_tail p).
Proof.
  unfold no, dollar. destruct p as [d t|n t|t]; cbn -[In]; [intros []| |intros (_ & H & _); exact H]. intros (H1 & H2 & H3). apply in_cons_not. split; [discriminate|]. intros I. apply in_app_iff in I as [I|I]; [auto|]. apply in_cons_not in I; [exact I|]. split; [discriminate|exact H3].
Qed.
Lemma split_template (ok : part -> Prop) t : (forall p, ok p -> no dollar (part_tail p)) -> no dollar (t_start t) -> Forall ok (t_parts t) ->
  split_on dollar (template_text t) = t_start t :: map part_tail (t_parts t).
Proof.
  intros K H F. rewrite template_join. apply split_join; [discriminate|]. constructor; [exact H|]. apply Forall_map. eapply Forall_impl; [|exact F]. exact K.
Qed.
Lemma split_no sep s : Forall (fun p => ~ In sep p) (split_on sep s).
Proof.
  induction s as [|c s IH]; cbn [split_on]; [constructor; [intros []|constructor]|]. destruct (eqc c sep) eqn:E; [constructor; [intros []|exact IH]|].
  destruct (split_on sep s) as [|p ps]; [constructor; [|constructor]; intros [->|[]]; rewrite eqc_same in E; discriminate|].
  inversion IH; subst. constructor; [|assumption]. intros [->|I]; [rewrite eqc_same in E; discriminate|contradiction].
Qed.
(** the general form of the two functions that fill templates *)
Lemma out_general (f : bytes -> res bytes) out : match split_on dollar out with [] | [_] => Ok out | p0 :: parts => do os <- res_map f parts; Ok (concat (p0 :: os)) end =
  match split_on dollar out with [] => Ok out | p0 :: parts => do os <- res_map f parts; Ok (p0 ++ concat os) end.
Proof.
  pose proof (join_split dollar out) as J. destruct (split_on dollar out) as [|p0 [|p1 ps]]; [reflexivity| |reflexivity]. cbn [join] in J. subst out. cbn [res_map bind concat]. rewrite app_nil_r. reflexivity.
Qed.
Lemma direct_fill_ok gs t : direct_ok t -> direct_out gs (template_text t) = Ok (direct_fill gs t).
Proof.
  intros [H F]. unfold direct_out. rewrite out_general. change "$"%char with dollar. rewrite (split_template direct_part_ok t direct_tail_no H F). unfold direct_fill.
  assert (G : res_map (direct_part gs) (map part_tail (t_parts t)) = Ok (map (fun p => match p with PGroup d r => nth (Z.to_nat (digit_val d)) gs [] ++ r | PNamed _ r | PPlain r => r end) (t_parts t))).
  { induction F as [|p ps Hp F IH]; [reflexivity|]. cbn [map res_map]. rewrite IH. destruct p as [d r|n r|r]; cbn in Hp; [|destruct Hp|].
    - cbn [part_tail part_text direct_part]. rewrite (proj1 Hp). reflexivity.
    - destruct Hp as (N & _ & D). cbn [part_tail part_text]. destruct r as [|d r]; [congruence|]. cbn [direct_part]. rewrite (D d r eq_refl). reflexivity. }
  rewrite G. cbn [bind]. rewrite flat_map_concat_map. reflexivity.
Qed.
(** every template without "$$" or a "$" at its end has a form *)
Lemma cut_brace_none s : cut_brace s = None -> no "}"%char s.
Proof.
  unfold no. induction s as [|c s IH]; cbn [cut_brace]; [auto|]. destruct (eqc c "}"%char) eqn:E; [discriminate|]. destruct (cut_brace s) as [[a b]|]; [discriminate|]. intros _ [->|I]; [rewrite eqc_same in E; discriminate|]. apply IH; auto.
Qed.
Lemma cut_brace_some s a b : cut_brace s = Some (a, b) -> s = a ++ "}"%char :: b /\ no "}"%char a.
Proof.
  unfold no. revert a b. induction s as [|c s IH]; intros a b; cbn [cut_brace]; [discriminate|]. destruct (eqc c "}"%char) eqn:E.
  - intros [= <- <-]. apply Ascii.eqb_eq in E. subst. split; [reflexivity|auto].
  - destruct (cut_brace s) as [[a' b']|]; [|discriminate]. intros [= <- <-]. destruct (IH _ _ eq_refl) as [-> N]. split; [reflexivity|]. intros [->|I]; [rewrite eqc_same in E; discriminate|auto].
Qed.
Lemma cut_brace_app n t : no "}"%char n -> cut_brace (n ++ "}"%char :: t) = Some (n, t).
Proof.
  unfold no. induction n as [|c n IH]; intros N; cbn [app cut_brace]; [rewrite eqc_same; reflexivity|]. destruct (eqc c "}"%char) eqn:E; [apply Ascii.eqb_eq in E; subst; exfalso; apply N; left; reflexivity|].
  rewrite IH; [reflexivity|]. intros I. apply N. right. exact I.
Qed.
Lemma parts_form (ok : part -> Prop) ps : (forall s, s <> [] -> no dollar s -> exists p, ok p /\ part_tail p = s) ->
  Forall (fun p => ~ In dollar p) ps -> Forall (fun p => p <> []) ps -> exists qs, Forall ok qs /\ map part_tail qs = ps.
Proof.
  intros K F N. induction ps as [|p ps IH]; [exists []; split; [constructor|reflexivity]|]. inversion F; subst. inversion N; subst.
  destruct IH as (qs & Q1 & Q2); auto. destruct (K p) as (q & O1 & O2); auto. exists (q :: qs). split; [constructor; assumption|]. cbn [map]. rewrite Q2, O2. reflexivity.
Qed.
Lemma direct_form s : s <> [] -> no dollar s -> exists p, direct_part_ok p /\ part_tail p = s.
Proof.
  intros N D. destruct s as [|c s]; [congruence|]. unfold no in D. apply in_cons_not in D as [D1 D2]. destruct (is_digit c) eqn:E.
  - exists (PGroup c s). split; [split; assumption|reflexivity].
  - exists (PPlain (c :: s)). split; [|reflexivity]. split; [discriminate|]. split; [apply in_cons_not; auto|]. intros d r [= <- <-]. exact E.
Qed.
Lemma derived_form s : s <> [] -> no dollar s -> exists p, derived_part_ok p /\ part_tail p = s.
Proof.
  intros N D. destruct s as [|c s]; [congruence|]. pose proof D as D'. unfold no in D. apply in_cons_not in D as [D1 D2].
  assert (P : (forall r, c :: s = "{"%char :: r -> no "}"%char r) -> exists p, derived_part_ok p /\ part_tail p = c :: s).
  { intros H. exists (PPlain (c :: s)). split; [|reflexivity]. split; [discriminate|]. split; [exact D'|exact H]. }
  destruct (eqc c "{"%char) eqn:E; [|apply P; intros r [= -> _]; rewrite eqc_same in E; discriminate].
  apply Ascii.eqb_eq in E. subst c. destruct (cut_brace s) as [[a b]|] eqn:Ec; [|apply P; intros r [= <-]; apply cut_brace_none, Ec].
  apply cut_brace_some in Ec as [-> Na]. exists (PNamed a b). split; [|reflexivity]. unfold no. rewrite in_app_iff in D2. cbn in D2. cbn. unfold no in Na. tauto.
Qed.
Lemma template_form (ok : part -> Prop) out : (forall s, s <> [] -> no dollar s -> exists p, ok p /\ part_tail p = s) ->
  Forall (fun p => p <> []) (tl (split_on dollar out)) -> exists t, template_text t = out /\ no dollar (t_start t) /\ Forall ok (t_parts t).
Proof.
  intros K F. pose proof (join_split dollar out) as J. pose proof (split_no dollar out) as S. destruct (split_on dollar out) as [|p0 ps].
  - exists (mkTemplate [] []). cbn in J. subst. split; [reflexivity|]. split; [intros []|constructor].
  - inversion S; subst. destruct (parts_form ok ps K ltac:(assumption) F) as (qs & Q1 & Q2). exists (mkTemplate p0 qs). split; [rewrite template_join; cbn [t_start t_parts]; rewrite Q2; reflexivity|]. split; assumption.
Qed.
Lemma res_map_nonempty (f : bytes -> res bytes) ps os : (forall s, f [] <> Ok s) -> res_map f ps = Ok os -> Forall (fun p => p <> []) ps.
Proof.
  intros H. revert os. induction ps as [|p ps IH]; intros os E; [constructor|]. cbn [res_map] in E. destruct (f p) as [y| |] eqn:Ep; try discriminate. cbn [bind] in E. destruct (res_map f ps) as [ys| |]; try discriminate.
  constructor; [intros ->; exact (H _ Ep)|eapply IH; reflexivity].
Qed.
Lemma direct_sound gs out v : direct_out gs out = Ok v -> exists t, template_text t = out /\ direct_ok t /\ v = direct_fill gs t.
Proof.
  intros H. assert (F : Forall (fun p => p <> []) (tl (split_on dollar out))).
  { unfold direct_out in H. rewrite out_general in H. change "$"%char with dollar in H. destruct (split_on dollar out) as [|p0 ps]; [constructor|]. cbn [tl].
    destruct (res_map (direct_part gs) ps) as [os| |] eqn:E; try discriminate. eapply res_map_nonempty; [|exact E]. intros s; discriminate. }
  destruct (template_form direct_part_ok out direct_form F) as (t & E & O1 & O2). exists t. split; [exact E|]. split; [split; assumption|]. rewrite <- E, direct_fill_ok in H by (split; assumption). congruence.
Qed.

(** ** values *)
Section Values.
Variable rexm : bytes -> bytes -> option (list bytes).
Variable row : list bytes.
Variable fm : fmap.
Local Notation named := (named rexm row fm).
Local Notation first_of := (first_of rexm row fm).
Local Notation defined := (defined rexm row fm).
Local Notation filled := (filled rexm row fm).
Local Notation value := (value rexm row fm).
Local Notation field_value := (field_value rexm row).
Local Notation first_value := (first_value rexm row).

Lemma derived_out_eq val t : derived_ok t -> derived_out val (template_text t) = do os <- res_map (derived_part val) (map part_tail (t_parts t)); Ok (t_start t ++ concat os).
Proof.
  intros [H F]. unfold derived_out. rewrite out_general. change "$"%char with dollar. rewrite (split_template derived_part_ok t derived_tail_no H F). reflexivity.
Qed.
Section Sound.
Variable val : bytes -> res bytes.
Hypothesis S : forall n v, val n = Ok v -> named n v.
Lemma filled_sound ps : Forall derived_part_ok ps -> forall os, res_map (derived_part val) (map part_tail ps) = Ok os -> filled ps (concat os).
Proof.
  induction 1 as [|p ps Hp F IH]; intros os H; cbn [map res_map] in H; [injection H as <-; constructor|].
  destruct (derived_part val (part_tail p)) as [o| |] eqn:E; try discriminate. cbn [bind] in H. destruct (res_map (derived_part val) (map part_tail ps)) as [os'| |] eqn:E2; try discriminate. injection H as <-.
  specialize (IH _ eq_refl). cbn [concat]. destruct p as [d t|n t|t]; cbn in Hp; [destruct Hp| |].
  - cbn [part_tail part_text derived_part] in E. rewrite eqc_same, cut_brace_app in E by tauto. destruct (val n) as [v| |] eqn:Ev; try discriminate. injection E as <-. rewrite <- app_assoc. constructor; [apply S, Ev|exact IH].
  - assert (Q : o = t). { destruct Hp as (N & _ & D). cbn [part_tail part_text] in E. destruct t as [|c t]; [congruence|]. cbn [derived_part] in E. destruct (eqc c "{"%char) eqn:Ec; [|congruence].
      apply Ascii.eqb_eq in Ec. subst c. destruct (cut_brace t) as [[a b]|] eqn:Eb; [|congruence]. apply cut_brace_some in Eb as [-> _]. exfalso. apply (D _ eq_refl). apply in_elt. }
    rewrite Q. constructor. exact IH.
Qed.
Lemma derived_sound out v : derived_out val out = Ok v -> exists t vs, template_text t = out /\ derived_ok t /\ filled (t_parts t) vs /\ v = t_start t ++ vs.
Proof.
  intros H. assert (F : Forall (fun p => p <> []) (tl (split_on dollar out))).
  { unfold derived_out in H. rewrite out_general in H. change "$"%char with dollar in H. destruct (split_on dollar out) as [|p0 ps]; [constructor|]. cbn [tl].
    destruct (res_map (derived_part val) ps) as [os| |] eqn:E; try discriminate. eapply res_map_nonempty; [|exact E]. intros s; discriminate. }
  destruct (template_form derived_part_ok out derived_form F) as (t & E & O1 & O2). subst out. rewrite derived_out_eq in H by (split; assumption).
  destruct (res_map (derived_part val) (map part_tail (t_parts t))) as [os| |] eqn:E; try discriminate. injection H as <-. exists t, (concat os). split; [reflexivity|]. split; [split; assumption|]. split; [apply filled_sound; assumption|reflexivity].
Qed.
Lemma row_at_sound i s : row_at row i = Ok s -> 0 <= i /\ nth_error row (Z.to_nat i) = Some s.
Proof. unfold row_at. destruct (i <? 0) eqn:E; [discriminate|]. destruct (nth_error row (Z.to_nat i)); [|discriminate]. intros [= <-]. split; [lia|reflexivity]. Qed.
Lemma field_sound f v : field_value val f = Ok v -> defined f v.
Proof.
  destruct f as [[i|] out c re]; unfold M_Csv.field_value; cbn [f_idx f_out f_cond f_re].
  - destruct (row_at row i) as [s| |] eqn:E; try discriminate. cbn [bind]. apply row_at_sound in E as [E1 E2]. destruct re as [re|]; [|intros [= <-]; econstructor; eassumption].
    destruct (rexm re s) as [gs|] eqn:Em; [|intros [= <-]; eapply df_no_extract; eassumption]. intros H. apply direct_sound in H as (t & <- & O1 & ->). eapply df_extract; eassumption.
  - destruct c as [|c0 c].
    + intros H. apply derived_sound in H as (t & vs & <- & O1 & O2 & ->). constructor; assumption.
    + destruct (val (c0 :: c)) as [w| |] eqn:E; try discriminate. cbn [bind]. destruct re as [re|]; [|discriminate]. destruct (rexm re w) as [gs|] eqn:Em; [|intros [= <-]; eapply df_not; eauto; discriminate].
      intros H. apply derived_sound in H as (t & vs & <- & O1 & O2 & ->). eapply df_when; eauto; discriminate.
Qed.
Lemma first_sound fs v : first_value val fs = Ok v -> first_of fs v.
Proof.
  revert v. induction fs as [|f fs IH]; intros v; cbn [M_Csv.first_value]; [intros [= <-]; constructor|]. destruct (field_value val f) as [w| |] eqn:E; try discriminate. cbn [bind]. apply field_sound in E.
  destruct w as [|c w]; [intros H; apply fo_next; auto|]. intros [= <-]. apply fo_here; [exact E|discriminate].
Qed.
End Sound.
Lemma value_sound fuel : forall n v, value fuel n = Ok v -> named n v.
Proof. induction fuel as [|f IH]; intros n v H; [discriminate|]. constructor. eapply first_sound; [exact IH|exact H]. Qed.

(** completeness: enough fuel gives the value *)
Scheme named_ind2 := Minimality for S_Csv.named Sort Prop
with first_ind2 := Minimality for S_Csv.first_of Sort Prop
with defined_ind2 := Minimality for S_Csv.defined Sort Prop
with filled_ind2 := Minimality for S_Csv.filled Sort Prop.
Combined Scheme values_ind from named_ind2, first_ind2, defined_ind2, filled_ind2.
Definition from (N : nat) (P : nat -> Prop) : Prop := forall fuel, (N <= fuel)%nat -> P fuel.
Lemma complete : (forall n v, named n v -> exists N, from N (fun k => value k n = Ok v)) /\
  (forall fs v, first_of fs v -> exists N, from N (fun k => first_value (value k) fs = Ok v)) /\
  (forall f v, defined f v -> exists N, from N (fun k => field_value (value k) f = Ok v)) /\
  (forall ps vs, filled ps vs -> exists N, from N (fun k => Forall derived_part_ok ps -> exists os, res_map (derived_part (value k)) (map part_tail ps) = Ok os /\ concat os = vs)).
Proof.
  apply values_ind.
  - intros n v _ (N & H). exists (S N). intros [|k] Hk; [lia|]. cbn [M_Csv.value]. apply H. lia.
  - exists 0%nat. intros k _. reflexivity.
  - intros f fs v _ (N & H) Hv. exists N. intros k Hk. cbn [M_Csv.first_value]. rewrite (H k Hk). cbn [bind]. destruct v; [congruence|reflexivity].
  - intros f fs v _ (N1 & H1) _ (N2 & H2). exists (Nat.max N1 N2). intros k Hk. cbn [M_Csv.first_value]. rewrite (H1 k) by lia. cbn [bind]. apply H2. lia.
  - intros i out c v Hi Hr. exists 0%nat. intros k _. unfold M_Csv.field_value, row_at. cbn [f_idx f_re]. destruct (Z.ltb_spec i 0); [lia|]. rewrite Hr. reflexivity.
  - intros i t c re v gs Hi Hr Hm Ho. exists 0%nat. intros k _. unfold M_Csv.field_value, row_at. cbn [f_idx f_re f_out]. destruct (Z.ltb_spec i 0); [lia|]. rewrite Hr. cbn [bind]. rewrite Hm. apply direct_fill_ok, Ho.
  - intros i out c re v Hi Hr Hm. exists 0%nat. intros k _. unfold M_Csv.field_value, row_at. cbn [f_idx f_re f_out]. destruct (Z.ltb_spec i 0); [lia|]. rewrite Hr. cbn [bind]. rewrite Hm. reflexivity.
  - intros t re vs Ho _ (N & H). exists N. intros k Hk. unfold M_Csv.field_value. cbn [f_idx f_cond f_out]. rewrite derived_out_eq by exact Ho. destruct (H k Hk (proj2 Ho)) as (os & E & <-). rewrite E. reflexivity.
  - intros t c re v gs vs Hc _ (N1 & H1) Hm Ho _ (N & H). exists (Nat.max N1 N). intros k Hk. unfold M_Csv.field_value. cbn [f_idx f_cond f_out f_re]. destruct c as [|c0 c]; [congruence|].
    rewrite (H1 k) by lia. cbn [bind]. rewrite Hm. rewrite derived_out_eq by exact Ho. destruct (H k ltac:(lia) (proj2 Ho)) as (os & E & <-). rewrite E. reflexivity.
  - intros out c re v Hc _ (N1 & H1) Hm. exists N1. intros k Hk. unfold M_Csv.field_value. cbn [f_idx f_cond f_out f_re]. destruct c as [|c0 c]; [congruence|]. rewrite (H1 k Hk). cbn [bind]. rewrite Hm. reflexivity.
  - exists 0%nat. intros k _ _. exists []. split; reflexivity.
  - intros n t ps v vs _ (N1 & H1) _ (N2 & H2). exists (Nat.max N1 N2). intros k Hk F. inversion F as [|? ? Hp F']; subst. destruct (H2 k ltac:(lia) F') as (os & E & <-).
    cbn [map res_map part_tail part_text derived_part]. cbn in Hp. rewrite eqc_same, cut_brace_app by tauto. rewrite (H1 k) by lia. cbn [bind]. rewrite E. cbn [bind]. eexists. split; [reflexivity|]. cbn [concat]. rewrite <- app_assoc. reflexivity.
  - intros t ps vs _ (N2 & H2). exists N2. intros k Hk F. inversion F as [|? ? Hp F']; subst. destruct (H2 k ltac:(lia) F') as (os & E & <-).
    cbn [map res_map part_tail part_text]. assert (Q : derived_part (value k) t = Ok t).
    { destruct Hp as (N & _ & D). destruct t as [|c t]; [congruence|]. cbn [derived_part]. destruct (eqc c "{"%char) eqn:Ec; [|reflexivity].
      apply Ascii.eqb_eq in Ec. subst c. destruct (cut_brace t) as [[a b]|] eqn:Eb; [|reflexivity]. apply cut_brace_some in Eb as [-> _]. exfalso. apply (D _ eq_refl). apply in_elt. }
    rewrite Q. cbn [bind]. rewrite E. cbn [bind]. eexists. split; reflexivity.
Qed.
Lemma value_complete n v : named n v -> exists N, forall fuel, (N <= fuel)%nat -> value fuel n = Ok v.
Proof. apply complete. Qed.
Lemma named_det n v w : named n v -> named n w -> v = w.
Proof. intros H1 H2. apply value_complete in H1 as (N1 & H1). apply value_complete in H2 as (N2 & H2). specialize (H1 (Nat.max N1 N2) ltac:(lia)). specialize (H2 (Nat.max N1 N2) ltac:(lia)). congruence. Qed.
End Values.
