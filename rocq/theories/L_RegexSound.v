(** What a successful match says about the text: declarative semantics and soundness of the matcher. *)
From Verif Require Import Base M_Regex L_Regex.

(** [mt r s s' new]: [r] matches a prefix of [s], leaves [s'], and records [new] *)
Inductive mt : rx -> bytes -> bytes -> caps -> Prop :=
| mt_eps s : mt REps s s []
| mt_set f c s : f c = true -> mt (RSet f) (c :: s) s []
| mt_seq a b s1 s2 s3 n1 n2 : mt a s1 s2 n1 -> mt b s2 s3 n2 -> mt (RSeq a b) s1 s3 (n2 ++ n1)
| mt_alt_l a b s s' n : mt a s s' n -> mt (RAlt a b) s s' n
| mt_alt_r a b s s' n : mt b s s' n -> mt (RAlt a b) s s' n
| mt_opt_some a s s' n : mt a s s' n -> mt (ROpt a) s s' n
| mt_opt_none a s : mt (ROpt a) s s []
| mt_star_nil a s : mt (RStar a) s s []
| mt_star_cons a s1 s2 s3 n1 n2 : mt a s1 s2 n1 -> mt (RStar a) s2 s3 n2 -> mt (RStar a) s1 s3 (n2 ++ n1)
| mt_grp x a s s' n : mt a s s' n -> mt (RGrp x a) s s' ((x, firstn (List.length s - List.length s') s) :: n)
| mt_end : mt REnd [] [] [].

Lemma rmatch_sound {R} r : forall s cs (k : bytes -> caps -> option R) x,
  rmatch r s cs k = Some x -> exists s' new, mt r s s' new /\ k s' (new ++ cs) = Some x.
Proof.
  induction r; intros s cs k x H; cbn [rmatch] in H.
  - exists s, []. split; [constructor|exact H].
  - destruct s as [|c s]; [discriminate|]. destruct (f c) eqn:E; [|discriminate]. exists s, []. split; [constructor; exact E|exact H].
  - apply IHr1 in H as (s1 & n1 & M1 & H). apply IHr2 in H as (s2 & n2 & M2 & H). exists s2, (n2 ++ n1).
    split; [econstructor; eassumption|]. rewrite <- app_assoc. exact H.
  - destruct (rmatch r1 s cs k) eqn:E.
    + injection H as <-. apply IHr1 in E as (s' & n & M & H). exists s', n. split; [apply mt_alt_l, M|exact H].
    + apply IHr2 in H as (s' & n & M & H). exists s', n. split; [apply mt_alt_r, M|exact H].
  - destruct (rmatch r s cs k) eqn:E.
    + injection H as <-. apply IHr in E as (s' & n & M & H). exists s', n. split; [apply mt_opt_some, M|exact H].
    + exists s, []. split; [apply mt_opt_none|exact H].
  - revert H. generalize (List.length s). intros n. revert s cs x. induction n; intros s cs x H.
    + exists s, []. split; [constructor|exact H].
    + match type of H with match ?m with _ => _ end = _ => destruct m eqn:E end.
      * injection H as <-. apply IHr in E as (s1 & n1 & M1 & H). cbv beta in H. destruct (_ <? _)%nat; [|discriminate].
        apply IHn in H as (s2 & n2 & M2 & H). exists s2, (n2 ++ n1). split; [econstructor; eassumption|]. rewrite <- app_assoc. exact H.
      * exists s, []. split; [constructor|exact H].
  - apply IHr in H as (s' & n & M & H). eexists s', _. split; [apply mt_grp, M|]. exact H.
  - destruct s; [|discriminate]. exists [], []. split; [constructor|exact H].
Qed.
Lemma mt_suffix r s s' n : mt r s s' n -> exists t, s = t ++ s'.
Proof.
  induction 1; try (exists []; reflexivity); try assumption.
  - exists [c]. reflexivity.
  - destruct IHmt1 as (t1 & ->), IHmt2 as (t2 & ->). exists (t1 ++ t2). apply app_assoc.
  - destruct IHmt1 as (t1 & ->), IHmt2 as (t2 & ->). exists (t1 ++ t2). apply app_assoc.
Qed.
Lemma rsearch_sound r s rest cs : rsearch r s = Some (rest, cs) -> exists pre s', s = pre ++ s' /\ mt r s' rest cs.
Proof.
  assert (G : forall s, rprefix r s = Some (rest, cs) -> mt r s rest cs).
  { intros s' H. apply rmatch_sound in H as (s1 & new & M & H). rewrite app_nil_r in H. injection H as <- <-. exact M. }
  induction s as [|c s IH]; cbn [rsearch]; intros H.
  - destruct (rprefix r []) as [y|] eqn:E; [|discriminate]. injection H as ->. exists [], []. split; [reflexivity|apply G, E].
  - destruct (rprefix r (c :: s)) as [y|] eqn:E.
    + injection H as ->. exists [], (c :: s). split; [reflexivity|apply G, E].
    + apply IH in H as (pre & s' & -> & M). exists (c :: pre), s'. auto.
Qed.
(** inversions *)
Lemma mt_seq_inv a b s s' n : mt (RSeq a b) s s' n -> exists s1 n1 n2, mt a s s1 n1 /\ mt b s1 s' n2 /\ n = n2 ++ n1.
Proof. inversion 1; subst. eauto 8. Qed.
Lemma mt_set_inv f s s' n : mt (RSet f) s s' n -> exists c, s = c :: s' /\ f c = true /\ n = [].
Proof. inversion 1; subst. eauto. Qed.
Lemma mt_alt_inv a b s s' n : mt (RAlt a b) s s' n -> mt a s s' n \/ mt b s s' n.
Proof. inversion 1; subst; auto. Qed.
Lemma mt_opt_inv a s s' n : mt (ROpt a) s s' n -> mt a s s' n \/ (s' = s /\ n = []).
Proof. inversion 1; subst; auto. Qed.
Lemma mt_grp_inv x a s s' n : mt (RGrp x a) s s' n -> exists t n', s = t ++ s' /\ mt a s s' n' /\ n = (x, t) :: n'.
Proof.
  inversion 1 as [| | | | | | | | |? ? ? ? n' M|]; subst. destruct (mt_suffix _ _ _ _ M) as (t & ->). exists t, n'.
  repeat split; auto. rewrite firstn_app_len. reflexivity.
Qed.
Lemma mt_star_set_inv f s s' n : mt (RStar (RSet f)) s s' n -> exists run, s = run ++ s' /\ forallb f run = true /\ n = [].
Proof.
  intros H. remember (RStar (RSet f)) as r eqn:E. revert E. induction H; intros E; try discriminate.
  - injection E as ->. exists []. auto.
  - injection E as ->. apply mt_set_inv in H as (c & -> & Hc & ->). destruct (IHmt2 eq_refl) as (run & -> & Hr & ->).
    exists (c :: run). cbn. rewrite Hc. auto.
Qed.
Lemma mt_plus_set_inv f s s' n : mt (rplus (RSet f)) s s' n -> exists run, run <> [] /\ s = run ++ s' /\ forallb f run = true /\ n = [].
Proof.
  intros H. apply mt_seq_inv in H as (s1 & n1 & n2 & H1 & H2 & ->). apply mt_set_inv in H1 as (c & -> & Hc & ->).
  apply mt_star_set_inv in H2 as (run & -> & Hr & ->). exists (c :: run). cbn. rewrite Hc. repeat split; auto. discriminate.
Qed.

(** ** Completeness: a match exists whenever the declarative semantics has one *)
Definition caps_indep {R} (k : bytes -> caps -> option R) : Prop := forall s cs cs', k s cs = None -> k s cs' = None.
Lemma rmatch_caps {R} r : forall (k : bytes -> caps -> option R), caps_indep k -> caps_indep (fun s cs => rmatch r s cs k).
Proof.
  induction r; intros k Hk s cs cs' H; cbn [rmatch] in *.
  - eapply Hk, H.
  - destruct s as [|c s]; [reflexivity|]. destruct (f c); [eapply Hk, H|reflexivity].
  - refine (IHr1 (fun s' cs' => rmatch r2 s' cs' k) _ s cs cs' H). exact (IHr2 k Hk).
  - destruct (rmatch r1 s cs k) eqn:E; [discriminate|]. rewrite (IHr1 k Hk s cs cs' E). exact (IHr2 k Hk s cs cs' H).
  - destruct (rmatch r s cs k) eqn:E; [discriminate|]. rewrite (IHr k Hk s cs cs' E). eapply Hk, H.
  - revert H. generalize (List.length s). intros n. revert s cs cs'. induction n; intros s cs cs' H; [eapply Hk, H|].
    match type of H with match ?m with _ => _ end = _ => destruct m eqn:E; [discriminate|] end.
    match goal with |- match ?m with _ => _ end = _ => assert (E2 : m = None) end.
    { refine (IHr (fun s' cs' => if (List.length s' <? List.length s)%nat then _ else None) _ s cs cs' E).
      intros s1 c1 c2 H1. cbv beta in *. destruct (_ <? _)%nat; [|reflexivity]. eapply IHn, H1. }
    rewrite E2. eapply Hk, H.
  - refine (IHr (fun s' cs0 => k s' ((name, firstn (List.length s - List.length s') s) :: cs0)) _ s cs cs' H).
    intros s1 c1 c2 H1. eapply Hk, H1.
  - destruct s; [eapply Hk, H|reflexivity].
Qed.
Lemma rmatch_complete r s s' n : mt r s s' n -> forall R cs (k : bytes -> caps -> option R),
  caps_indep k -> k s' [] <> None -> rmatch r s cs k <> None.
Proof.
  induction 1; intros R cs k Hk Hs.
  - intros E. apply Hs. eapply Hk, E.
  - cbn. rewrite H. intros E. apply Hs. eapply Hk, E.
  - cbn [rmatch]. apply IHmt1; [apply rmatch_caps, Hk|]. apply IHmt2; auto.
  - cbn [rmatch]. intros E. specialize (IHmt R cs k Hk Hs). destruct (rmatch a s cs k); [discriminate|auto].
  - cbn [rmatch]. intros E. destruct (rmatch a s cs k); [discriminate|]. exact (IHmt R cs k Hk Hs E).
  - cbn [rmatch]. intros E. specialize (IHmt R cs k Hk Hs). destruct (rmatch a s cs k); [discriminate|auto].
  - cbn [rmatch]. intros E. destruct (rmatch a s cs k); [discriminate|]. apply Hs. eapply Hk, E.
  - rewrite star_unfold. intros E. match type of E with match ?m with _ => _ end = _ => destruct m; [discriminate|] end.
    apply Hs. eapply Hk, E.
  - destruct (mt_suffix _ _ _ _ H) as ([|c t] & E).
    + cbn in E. subst s2. apply IHmt2; auto.
    + rewrite star_unfold. intros E1.
      match type of E1 with match ?m with _ => _ end = _ => destruct m eqn:E2; [discriminate|] end.
      revert E2. apply IHmt1.
      * intros s0 c1 c2 H1. destruct (_ <? _)%nat; [|reflexivity]. refine (rmatch_caps (RStar a) k Hk s0 c1 c2 H1).
      * rewrite (proj2 (Nat.ltb_lt _ _)); [apply IHmt2; auto|]. subst s1. cbn. rewrite app_length. lia.
  - cbn [rmatch]. apply IHmt; [|intros E; apply Hs; eapply Hk, E]. intros s0 c1 c2 H1. eapply Hk, H1.
  - cbn. intros E. apply Hs. eapply Hk, E.
Qed.
