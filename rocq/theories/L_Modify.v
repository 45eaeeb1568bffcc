(** Lemmas: what the modify command does. *)
From Coq Require Import Sorted Permutation.
From Verif Require Import Base M_Amount M_Regex M_Date M_Parser M_Writer M_Names M_Tags M_Ledger M_Commands S_Amount S_Ledger S_Books S_Commands
  L_Dec L_Sort L_Amount L_Registers L_Resolve L_Resolve2 L_Check L_Load L_Move L_RoundTrip L_Entries L_Format.

(** postings of a transaction are in the registers of their accounts *)
Definition held (L : ledger) (ps : list nat) : Prop := forall p, In p ps -> (p < nxt L)%nat /\ In p (reg L (rp_acc (heap L p))).
(** what is left of the registers when [ps] are taken away *)
Definition rest (L : ledger) (ps : list nat) (a : bytes) : list nat := filter (fun q => negb (existsb (Nat.eqb q) ps)) (reg L a).
Record mstep (L L' : ledger) (p : nat) : Prop := {
  ms_ok : ledger_ok L'; ms_nxt : nxt L' = nxt L; ms_other : forall q, q <> p -> heap L' q = heap L q;
  ms_held : forall ps, held L ps -> held L' ps; ms_rest : forall ps a, In p ps -> rest L' ps a = rest L ps a }.

Lemma existsb_in p ps : In p ps -> existsb (Nat.eqb p) ps = true.
Proof. intros H. apply existsb_exists. exists p. split; [exact H|apply Nat.eqb_refl]. Qed.
Lemma mstep_refl L p : ledger_ok L -> mstep L L p.
Proof. intros H. constructor; auto. Qed.
Lemma mstep_trans L1 L2 L3 p : mstep L1 L2 p -> mstep L2 L3 p -> mstep L1 L3 p.
Proof.
  intros A C. constructor.
  - apply C.
  - rewrite (ms_nxt _ _ _ C). apply A.
  - intros q Hq. rewrite (ms_other _ _ _ C q Hq). apply A, Hq.
  - intros ps H. apply C, A, H.
  - intros ps a H. rewrite (ms_rest _ _ _ C ps a H). apply A, H.
Qed.
Lemma mstep_move L p a : ledger_ok L -> held L [p] -> mstep L (move_to L p a) p /\ heap (move_to L p a) p = with_acc (heap L p) a.
Proof.
  intros Hok Hh. destruct (Hh p (or_introl eq_refl)) as [H1 H2]. destruct (eqb_bytes (rp_acc (heap L p)) a) eqn:E.
  - apply eqb_bytes_eq in E. subst a. rewrite move_same. split; [apply mstep_refl, Hok|]. destruct (heap L p); reflexivity.
  - assert (N : a <> rp_acc (heap L p)) by (intros ->; rewrite eqb_bytes_refl in E; discriminate).
    destruct (move_spec L p a Hok H1 H2 N) as (A1 & A2 & A3 & A4 & A5 & A6 & A7 & A8). split; [|exact A1].
    assert (R1 : forall ps b, In p ps -> rest (move_to L p a) ps b = rest L ps b).
    { intros ps b Hp. unfold rest. assert (Ep := existsb_in p ps Hp).
      destruct (eqb_bytes b a) eqn:Eb; [apply eqb_bytes_eq in Eb; subst b|destruct (eqb_bytes b (rp_acc (heap L p))) eqn:Eb2; [apply eqb_bytes_eq in Eb2; subst b|]].
      - destruct A6 as (bf & af & -> & -> & _). rewrite !filter_app. cbn [filter]. rewrite Ep. reflexivity.
      - destruct A5 as (bf & af & -> & -> & _). rewrite !filter_app. cbn [filter]. rewrite Ep. reflexivity.
      - rewrite A7; [reflexivity| |]; intros ->; rewrite eqb_bytes_refl in *; discriminate. }
    constructor; [exact A8|exact A3|exact A2| |exact R1].
    intros ps H q Hq. destruct (H q Hq) as [K1 K2]. rewrite A3. split; [exact K1|]. destruct (Nat.eq_dec q p) as [->|Nq].
    + rewrite A1. cbn. destruct A6 as (bf & af & _ & -> & _). apply in_elt.
    + rewrite A2 by exact Nq.
      assert (Iq : In q (rest L [p] (rp_acc (heap L q)))).
      { apply filter_In. split; [exact K2|]. cbn. destruct (Nat.eqb_spec q p); [contradiction|reflexivity]. }
      rewrite <- R1 in Iq by (left; reflexivity). apply filter_In in Iq. tauto.
Qed.
Lemma mstep_notes L p ns : ledger_ok L -> (p < nxt L)%nat -> mstep L (set_post L p (with_notes (heap L p) ns)) p /\
  heap (set_post L p (with_notes (heap L p) ns)) p = with_notes (heap L p) ns.
Proof.
  intros Hok Hp. set (L' := set_post L p (with_notes (heap L p) ns)).
  assert (D : forall q, dates L' q = dates L q) by (intros q; unfold dates, L'; cbn; unfold updn; destruct (Nat.eqb_spec q p) as [->|]; reflexivity).
  assert (A : forall q, rp_acc (heap L' q) = rp_acc (heap L q)) by (intros q; unfold L'; cbn; unfold updn; destruct (Nat.eqb_spec q p) as [->|]; reflexivity).
  split; [|unfold L'; cbn; apply updn_same]. constructor.
  - intros a. destruct (Hok a) as (K1 & K2 & K3). change (reg L' a) with (reg L a). split; [eapply order_ext; [intros; symmetry; apply D|exact K1]|]. split; [exact K2|].
    intros q Hq. rewrite A. apply K3, Hq.
  - reflexivity.
  - intros q Hq. unfold L'. cbn. apply updn_other, Hq.
  - intros ps H q Hq. rewrite A. apply H, Hq.
  - reflexivity.
Qed.
Definition changed_rp (m : modify_cmd) (v : rposting) : rposting :=
  let v := match m_to m with Some a => with_acc v a | None => v end in
  match m_set_ptag m with [] => v | line => with_notes v (add_tag_line (rp_notes v) line) end.
Definition changes (m : modify_cmd) : bool := match m_to m, m_set_ptag m with None, [] => false | _, _ => true end.
Lemma changes_iff m : changes m = true <-> posting_change m.
Proof.
  unfold changes, posting_change. destruct (m_to m), (m_set_ptag m); split; intros H; try reflexivity; try (left; discriminate); try (right; discriminate); try discriminate.
  destruct H; congruence.
Qed.
Lemma modify_posting_spec m L p : ledger_ok L -> held L [p] ->
  let r := modify_posting m L p in snd r = changes m /\ mstep L (fst r) p /\ heap (fst r) p = changed_rp m (heap L p).
Proof.
  intros Hok Hh. unfold modify_posting, changes, changed_rp. destruct (Hh p (or_introl eq_refl)) as [H1 _].
  destruct (m_to m) as [a|].
  - destruct (mstep_move L p a Hok Hh) as [A1 A2]. destruct (m_set_ptag m) as [|c l]; [cbn; auto|]. cbn [fst snd].
    destruct (mstep_notes (move_to L p a) p (add_tag_line (rp_notes (heap (move_to L p a) p)) (c :: l))) as [B1 B2]; [apply A1|rewrite (ms_nxt _ _ _ A1); exact H1|].
    split; [reflexivity|]. split; [eapply mstep_trans; eassumption|]. rewrite B2, A2. reflexivity.
  - destruct (m_set_ptag m) as [|c l]; [cbn; split; [reflexivity|split; [apply mstep_refl, Hok|reflexivity]]|]. cbn [fst snd].
    destruct (mstep_notes L p (add_tag_line (rp_notes (heap L p)) (c :: l)) Hok H1) as [B1 B2]. auto.
Qed.
Lemma changed_rp_written m v : wposting (changed_rp m v) = changed_posting m (wposting v).
Proof. unfold changed_rp, changed_posting. destruct (m_to m), (m_set_ptag m); reflexivity. Qed.

Definition hits (m : modify_cmd) (s : posting) : bool :=
  is_from m (ps_account s) || match m_ptag m with Some tm => tags_match tm (parse_tags (ps_notes s)) | None => false end.
Lemma is_from_iff m a : is_from m a = true <-> m_from m = Some a.
Proof.
  unfold is_from. destruct (m_from m) as [f|]; [|split; discriminate]. rewrite eqb_bytes_eq. split; congruence.
Qed.
Lemma hits_iff m s : hits m s = true <-> hit m s.
Proof.
  unfold hits, hit. rewrite orb_true_iff, is_from_iff. apply or_iff_compat_l. destruct (m_ptag m) as [tm|].
  - split; [eauto|]. intros (tm' & [= ->] & H). exact H.
  - split; [discriminate|]. intros (? & ? & _). discriminate.
Qed.
Definition first_changed (m : modify_cmd) (ps ps' : list posting) (b : bool) : Prop :=
  (b = true /\ changes m = true /\ exists s1 s s2, ps = s1 ++ s :: s2 /\ hits m s = true /\ (forall u, In u s1 -> hits m u = false) /\ ps' = s1 ++ changed_posting m s :: s2) \/
  (b = false /\ ps' = ps /\ (changes m = true -> forall s, In s ps -> hits m s = false)).

(** the loop once something was modified *)
Lemma modify_loop_done m ptags : forall ps L has, modify_loop m ptags ps L has true = (L, has || existsb (fun p => is_from m (rp_acc (heap L p))) ps, true).
Proof.
  induction ps as [|p ps IH]; intros L has; cbn [modify_loop existsb]; [rewrite orb_false_r; reflexivity|].
  destruct (is_from m (rp_acc (heap L p))); destruct (match m_ptag m with Some tm => _ | None => _ end); rewrite IH; cbn [orb]; rewrite ?orb_true_r; reflexivity.
Qed.
Definition posts (L : ledger) (ps : list nat) : list posting := map (fun p => wposting (heap L p)) ps.
Lemma modify_loop_spec m ptags : forall ps L has L' has' b, ledger_ok L -> held L ps -> NoDup ps ->
  (forall p, In p ps -> ptags p = parse_tags (rp_notes (heap L p))) -> modify_loop m ptags ps L has false = (L', has', b) ->
  has' = (has || existsb (fun s => is_from m (ps_account s)) (posts L ps)) /\ first_changed m (posts L ps) (posts L' ps) b /\
  ledger_ok L' /\ nxt L' = nxt L /\ (forall q, ~ In q ps -> heap L' q = heap L q) /\ (forall qs, held L qs -> held L' qs) /\
  (forall qs a, incl ps qs -> rest L' qs a = rest L qs a).
Proof.
  induction ps as [|p ps IH]; intros L has L' has' b Hok Hh Nd Ht H.
  - cbn in H. injection H as <- <- <-. rewrite orb_false_r. split; [reflexivity|]. split; [right; repeat split; cbn; tauto|]. auto 6.
  - inversion Nd as [|? ? Np Nr]; subst. cbn [modify_loop] in H. rewrite (Ht p (or_introl eq_refl)) in H.
    assert (Hp : held L [p]) by (intros q [<-|[]]; apply Hh; left; reflexivity).
    destruct (modify_posting_spec m L p Hok Hp) as (M1 & M2 & M3). destruct (modify_posting m L p) as [Lm bm] eqn:Em. cbn [fst snd] in M1, M2, M3. subst bm.
    set (tg := match m_ptag m with Some tm => tags_match tm (parse_tags (rp_notes (heap L p))) | None => false end) in *.
    assert (Hs : hits m (wposting (heap L p)) = is_from m (rp_acc (heap L p)) || tg) by reflexivity.
    (* the case of a change at [p] *)
    assert (Case1 : forall h, changes m = true -> is_from m (rp_acc (heap L p)) || tg = true -> modify_loop m ptags ps Lm h true = (L', has', b) ->
       b = true /\ has' = (h || existsb (fun s => is_from m (ps_account s)) (posts L ps)) /\ first_changed m (posts L (p :: ps)) (posts L' (p :: ps)) b /\
       ledger_ok L' /\ nxt L' = nxt L /\ (forall q, ~ In q (p :: ps) -> heap L' q = heap L q) /\ (forall qs, held L qs -> held L' qs) /\
       (forall qs a, incl (p :: ps) qs -> rest L' qs a = rest L qs a)).
    { intros h Hc Hx K. rewrite modify_loop_done in K. injection K as <- <- <-.
      assert (Ps : posts Lm ps = posts L ps).
      { unfold posts. apply map_ext_in. intros q Hq. rewrite (ms_other _ _ _ M2); [reflexivity|]. intros ->. tauto. }
      split; [reflexivity|]. split.
      { f_equal. unfold posts. rewrite <- (map_map (fun q => heap L q) wposting). clear - M2 Np. induction ps as [|q ps IH]; [reflexivity|]. cbn [existsb map].
        rewrite (ms_other _ _ _ M2) by (intros ->; apply Np; left; reflexivity). f_equal. apply IH. intros F. apply Np. right. exact F. }
      split.
      { left. split; [reflexivity|]. split; [exact Hc|]. exists [], (wposting (heap L p)), (posts L ps). split; [reflexivity|]. split; [rewrite Hs; exact Hx|].
        split; [intros u []|]. cbn [posts map app]. change (map (fun p0 => wposting (heap Lm p0)) ps) with (posts Lm ps). rewrite Ps, M3, changed_rp_written. reflexivity. }
      split; [apply M2|]. split; [apply M2|]. split; [intros q Hq; apply M2; intros ->; apply Hq; left; reflexivity|]. split; [apply M2|].
      intros qs a Hi. apply M2, Hi. left; reflexivity. }
    (* going on without a change: [Lm] differs from [L] in nothing that matters when nothing is to be changed *)
    assert (Same : changes m = false -> Lm = L).
    { intros Hc. unfold changes in Hc. unfold modify_posting in Em. destruct (m_to m); [discriminate|]. destruct (m_set_ptag m); [|discriminate]. congruence. }
    assert (Case2 : forall h, (changes m = true -> is_from m (rp_acc (heap L p)) || tg = false) -> modify_loop m ptags ps L h false = (L', has', b) ->
       has' = (h || existsb (fun s => is_from m (ps_account s)) (posts L ps)) /\ first_changed m (posts L (p :: ps)) (posts L' (p :: ps)) b /\
       ledger_ok L' /\ nxt L' = nxt L /\ (forall q, ~ In q (p :: ps) -> heap L' q = heap L q) /\ (forall qs, held L qs -> held L' qs) /\
       (forall qs a, incl (p :: ps) qs -> rest L' qs a = rest L qs a)).
    { intros h Hx K. apply IH in K as (K1 & K2 & K3 & K4 & K5 & K6 & K7); [|exact Hok|intros q Hq; apply Hh; right; exact Hq|exact Nr|intros q Hq; apply Ht; right; exact Hq].
      split; [exact K1|]. split.
      { assert (Ep : wposting (heap L' p) = wposting (heap L p)) by (rewrite K5 by exact Np; reflexivity).
        destruct K2 as [(-> & Hc & s1 & s & s2 & E1 & E2 & E3 & E4)|(-> & E1 & E2)].
        - left. split; [reflexivity|]. split; [exact Hc|]. exists (wposting (heap L p) :: s1), s, s2. cbn [posts map app].
          change (map (fun p0 => wposting (heap L p0)) ps) with (posts L ps). change (map (fun p0 => wposting (heap L' p0)) ps) with (posts L' ps).
          rewrite E1, E4, Ep. split; [reflexivity|]. split; [exact E2|]. split; [|reflexivity]. intros u [<-|Hu]; [rewrite Hs; apply Hx, Hc|apply E3, Hu].
        - right. split; [reflexivity|]. cbn [posts map]. change (map (fun p0 => wposting (heap L p0)) ps) with (posts L ps). change (map (fun p0 => wposting (heap L' p0)) ps) with (posts L' ps).
          rewrite E1, Ep. split; [reflexivity|]. intros Hc s [<-|Hq]; [rewrite Hs; apply Hx, Hc|apply E2; assumption]. }
      split; [exact K3|]. split; [exact K4|]. split; [intros q Hq; apply K5; intros F; apply Hq; right; exact F|]. split; [exact K6|].
      intros qs a Hi. apply K7. intros q Hq. apply Hi. right; exact Hq. }
    assert (Eh : forall h, h || existsb (fun s => is_from m (ps_account s)) (posts L (p :: ps)) =
       (h || is_from m (rp_acc (heap L p))) || existsb (fun s => is_from m (ps_account s)) (posts L ps)).
    { intros h. cbn [posts map existsb]. cbn [wposting ps_account]. rewrite orb_assoc. reflexivity. }
    rewrite Eh. destruct (is_from m (rp_acc (heap L p))) eqn:Ef.
    + rewrite orb_true_r. destruct (changes m) eqn:Hc.
      * assert (G : modify_loop m ptags ps Lm true true = (L', has', b)) by (destruct tg; exact H).
        destruct (Case1 true eq_refl eq_refl G) as (_ & K). exact K.
      * rewrite (Same eq_refl) in *. destruct tg.
        -- rewrite Em in H. apply (Case2 true); [intros; discriminate|exact H].
        -- apply (Case2 true); [intros; discriminate|exact H].
    + rewrite orb_false_r. destruct tg.
      * rewrite Em in H. destruct (changes m) eqn:Hc.
        -- destruct (Case1 has eq_refl eq_refl H) as (_ & K). exact K.
        -- rewrite (Same eq_refl) in H. apply (Case2 has); [intros; discriminate|exact H].
      * apply (Case2 has); [intros; reflexivity|exact H].
Qed.

Lemma first_changed_spec m ps ps' b : first_changed m ps ps' b ->
  (b = true -> posting_change m /\ exists s1 s s2, ps = s1 ++ s :: s2 /\ hit m s /\ (forall u, In u s1 -> ~ hit m u) /\ ps' = s1 ++ changed_posting m s :: s2) /\
  (b = false -> ps' = ps /\ (posting_change m -> forall s, In s ps -> ~ hit m s)).
Proof.
  intros [(-> & Hc & s1 & s & s2 & E1 & E2 & E3 & E4)|(-> & E1 & E2)]; (split; [intros _|discriminate] || (split; [discriminate|intros _])).
  - split; [apply changes_iff, Hc|]. exists s1, s, s2. split; [exact E1|]. split; [apply hits_iff, E2|]. split; [|exact E4].
    intros u Hu F. apply hits_iff in F. rewrite E3 in F by exact Hu. discriminate.
  - split; [exact E1|]. intros Hc s Hs F. apply hits_iff in F. rewrite E2 in F; [discriminate|apply changes_iff, Hc|exact Hs].
Qed.
Definition tx_posts_ok (L : ledger) (ptags : nat -> tags) (x : rtx) : Prop :=
  held L (x_posts x) /\ NoDup (x_posts x) /\ forall p, In p (x_posts x) -> ptags p = parse_tags (rp_notes (heap L p)).
Lemma modify_tx_spec m ptags L x L' x' b : ledger_ok L -> tx_posts_ok L ptags x -> modify_tx m ptags L x = (L', x', b) ->
  modified_to m (as_written L x) (as_written L' x') b /\ x_posts x' = x_posts x /\
  ledger_ok L' /\ nxt L' = nxt L /\ (forall q, ~ In q (x_posts x) -> heap L' q = heap L q) /\ (forall qs, held L qs -> held L' qs) /\
  (forall qs a, incl (x_posts x) qs -> rest L' qs a = rest L qs a).
Proof.
  intros Hok (Hh & Nd & Ht) H. unfold modify_tx in H.
  assert (Skip : ~ selected m (as_written L x) -> (L, x, false) = (L', x', b) -> modified_to m (as_written L x) (as_written L' x') b /\ x_posts x' = x_posts x /\
     ledger_ok L' /\ nxt L' = nxt L /\ (forall q, ~ In q (x_posts x) -> heap L' q = heap L q) /\ (forall qs, held L qs -> held L' qs) /\
     (forall qs a, incl (x_posts x) qs -> rest L' qs a = rest L qs a)).
  { intros Ns E. injection E as <- <- <-. split; [|auto 7]. unfold modified_to. split; [reflexivity|]. split; [reflexivity|]. split; [reflexivity|]. split; [reflexivity|]. split; [auto|]. intros F. contradiction. }
  destruct (match m_payee m with Some f => negb (f (x_desc x)) | None => false end) eqn:E1.
  { apply Skip; [|exact H]. intros [S _]. destruct (m_payee m) as [f|]; [|discriminate]. specialize (S f eq_refl). cbn in S. rewrite S in E1. discriminate. }
  destruct (match m_ttag m with Some tm => negb (tags_match tm (parse_tags (x_notes x))) | None => false end) eqn:E2.
  { apply Skip; [|exact H]. intros [_ S]. destruct (m_ttag m) as [f|]; [|discriminate]. specialize (S f eq_refl). cbn [as_written t_notes] in S. rewrite S in E2. discriminate. }
  clear Skip.
  assert (Sel : selected m (as_written L x)).
  { split; cbn [as_written t_desc t_notes].
    - intros f Ef. rewrite Ef in E1. apply negb_false_iff in E1. exact E1.
    - intros f Ef. rewrite Ef in E2. apply negb_false_iff in E2. exact E2. }
  destruct (modify_loop m ptags (x_posts x) L false false) as [[Lm has] bm] eqn:El.
  destruct (modify_loop_spec m ptags _ _ _ _ _ _ Hok Hh Nd Ht El) as (A1 & A2 & A3 & A4 & A5 & A6 & A7). cbn [orb] in A1.
  apply first_changed_spec in A2 as [B1 B2].
  assert (Hf : forall a, m_from m = Some a -> (has = true <-> exists s, In s (t_postings (as_written L x)) /\ ps_account s = a)).
  { intros a Ea. rewrite A1, existsb_exists. rewrite as_written_postings. unfold is_from. rewrite Ea. unfold posts.
    split; intros (s & S1 & S2); exists s; (split; [exact S1|]); apply eqb_bytes_eq; exact S2. }
  destruct (match m_from m with Some _ => negb has | None => false end) eqn:E3.
  - injection H as <- <- <-. split; [|auto 7].
    assert (Nt : ~ tag_transaction m (as_written L x)).
    { intros [_ F]. destruct (m_from m) as [a|]; [|discriminate]. apply negb_true_iff in E3. destruct (Hf a eq_refl) as [_ K]. rewrite K in E3; [discriminate|]. apply F. reflexivity. }
    unfold modified_to. split; [reflexivity|]. split; [reflexivity|]. split; [reflexivity|]. split; [reflexivity|]. split; [intros F; contradiction|]. intros _. split; [intros F; contradiction|]. split; [reflexivity|]. split; [exact B1|exact B2].
  - injection H as <- <- <-. split; [|auto 7].
    assert (Tt : forall c l, m_set_ttag m = c :: l -> tag_transaction m (as_written L x)).
    { intros c l El'. split; [rewrite El'; discriminate|]. intros a Ea. apply (Hf a Ea). rewrite Ea in E3. apply negb_false_iff in E3. exact E3. }
    unfold modified_to. split; [reflexivity|]. split; [reflexivity|]. split; [reflexivity|]. split; [reflexivity|]. split; [intros F; contradiction|]. intros _. split; [|split; [|split; [exact B1|exact B2]]].
    + intros [F _]. cbn [as_written t_notes x_notes]. destruct (m_set_ttag m) as [|c l]; [destruct F; reflexivity|reflexivity].
    + intros F. cbn [as_written t_notes x_notes]. destruct (m_set_ttag m) as [|c l] eqn:Es; [reflexivity|]. destruct F. apply (Tt c l eq_refl).
Qed.

Lemma as_written_ext L L' x : (forall p, In p (x_posts x) -> heap L' p = heap L p) -> as_written L' x = as_written L x.
Proof. intros H. unfold as_written. f_equal. apply map_ext_in. intros p Hp. rewrite H by exact Hp. reflexivity. Qed.
Definition count_true (l : list bool) : nat := List.length (filter (fun b => b) l).
Lemma modify_txs_spec comm m ptags : forall xs L L' out n, ledger_ok L -> NoDup (flat_map x_posts xs) -> (forall x, In x xs -> tx_posts_ok L ptags x) ->
  modify_txs comm m ptags L xs = Ok (L', out, n) ->
  exists ts' bs, List.length ts' = List.length bs /\ Forall2 (fun t r => modified_to m t (fst r) (snd r)) (map (as_written L) xs) (combine ts' bs) /\
    write_transactions (fun a => c_dec (comm a)) ts' = Ok out /\ n = count_true bs /\
    ledger_ok L' /\ nxt L' = nxt L /\ (forall q, ~ In q (flat_map x_posts xs) -> heap L' q = heap L q) /\
    (forall qs a, incl (flat_map x_posts xs) qs -> rest L' qs a = rest L qs a).
Proof.
  induction xs as [|x xs IH]; intros L L' out n Hok Nd Hx H; cbn [modify_txs] in H.
  - injection H as <- <- <-. exists [], []. cbn. split; [reflexivity|]. split; [constructor|]. auto 8.
  - cbn [flat_map] in Nd. apply NoDup_app_inv in Nd as (N1 & N2 & N3).
    destruct (modify_tx m ptags L x) as [[L1 x'] b] eqn:E. apply bind_ok in H as (o & Eo & H). apply bind_ok in H as ([[L2 outs] k] & Ek & H). injection H as <- <- <-.
    destruct (modify_tx_spec m ptags L x L1 x' b Hok (Hx x (or_introl eq_refl)) E) as (A1 & A2 & A3 & A4 & A5 & A6 & A7).
    assert (Same : forall p, In p (flat_map x_posts xs) -> heap L1 p = heap L p) by (intros p Hp; apply A5; intros F; exact (N3 p F Hp)).
    assert (Hx' : forall y, In y xs -> tx_posts_ok L1 ptags y).
    { intros y Hy. destruct (Hx y (or_intror Hy)) as (K1 & K2 & K3). split; [apply A6, K1|]. split; [exact K2|]. intros p Hp. rewrite Same; [apply K3, Hp|].
      apply in_flat_map. eauto. }
    destruct (IH L1 L2 outs k A3 N2 Hx' Ek) as (ts' & bs & B1 & B2 & B3 & B4 & B5 & B6 & B7 & B8).
    exists (as_written L1 x' :: ts'), (b :: bs). split; [cbn; congruence|]. split.
    { cbn [map combine]. constructor; [exact A1|]. erewrite map_ext_in; [exact B2|]. intros y Hy. cbn. symmetry. apply as_written_ext. intros p Hp. apply Same, in_flat_map. eauto. }
    split.
    { unfold write_transactions in *. cbn [res_map]. rewrite Eo. cbn [bind]. apply bind_ok in B3 as (ls & E3 & B3). rewrite E3. cbn [bind concat]. injection B3 as <-.
      rewrite <- app_assoc. reflexivity. }
    split; [unfold count_true in *; destruct b; cbn [filter List.length]; rewrite B4; reflexivity|]. split; [exact B5|]. split; [congruence|]. split.
    { intros q Hq. cbn [flat_map] in Hq. rewrite B7, A5; [reflexivity| |]; intros F; apply Hq, in_or_app; auto. }
    intros qs a Hi. cbn [flat_map] in Hi. rewrite B8, A7; [reflexivity| |]; intros q Hq; apply Hi, in_or_app; auto.
Qed.

Section C.
Variable e : env.
Variable find : bytes -> res bytes.
Variable comm : bytes -> commodity.
Variable conv : conversion.
Variable accounts : list bytes.
Hypothesis Na : NoDup accounts.

Lemma load_posts_ok L ts L' ws sorted : ledger_ok L -> load_transactions find comm conv accounts false L ts = Ok (L', ws, sorted) ->
  NoDup (flat_map x_posts sorted) /\ forall x, In x sorted -> tx_posts_ok L' (fun p => parse_tags (rp_notes (heap L' p))) x.
Proof.
  intros Hok H. destruct (load_inv _ _ _ _ _ _ _ _ _ _ Hok Na H) as (L1 & xs & n & Ea & Es & A1 & A2 & R & D & _).
  assert (P : Permutation (flat_map x_posts xs) (flat_map x_posts sorted)) by (apply Permutation_flat_map; rewrite Es; apply stable_sort_perm).
  assert (Nd : NoDup (flat_map x_posts sorted)) by (eapply Permutation_NoDup; [exact P|]; rewrite A1; apply seq_NoDup).
  split; [exact Nd|]. intros x Hx. split; [|split].
  - intros p Hp. assert (Ip : In p (flat_map x_posts xs)) by (eapply Permutation_in; [symmetry; exact P|]; apply in_flat_map; eauto).
    split; [rewrite A1 in Ip; apply in_seq in Ip; lia|]. eapply Permutation_in; [apply (dated_perm _ _ _ (D (rp_acc (heap L' p))))|].
    apply in_or_app. right. apply filter_In. split; [exact Ip|apply eqb_bytes_refl].
  - clear - Nd Hx. induction sorted as [|y l IH]; [destruct Hx|]. cbn [flat_map] in Nd. apply NoDup_app_inv in Nd as (N1 & N2 & _).
    destruct Hx as [->|Hx]; [exact N1|apply IH; assumption].
  - reflexivity.
Qed.
Lemma modify_inv m L text L' out n items : ledger_ok L -> read_text e text = Ok items -> modify_file e find comm conv accounts m L text = Ok (L', out, n) ->
  exists ts1 ts2 ts3 bs, Forall2 (completed find comm conv) (transactions_of items) ts1 /\ ordered_version ts1 ts2 /\ Permutation ts1 ts2 /\
    List.length ts3 = List.length bs /\ Forall2 (fun t r => modified_to m t (fst r) (snd r)) ts2 (combine ts3 bs) /\
    write_transactions (fun a => c_dec (comm a)) ts3 = Ok out /\ n = count_true bs /\ (forall a, reg L' a = reg L a).
Proof.
  intros Hok Hr H. unfold modify_file in H. rewrite Hr in H. cbn [bind] in H.
  destruct (alloc_txs L (transactions_of items)) as [L1 xs] eqn:Ea. apply bind_ok in H as (r & E & H). destruct r as [[L2 ws] sorted].
  apply bind_ok in H as (r & Em & H). destruct r as [[L3 o] k]. injection H as <- <- <-.
  assert (El : load_transactions find comm conv accounts false L (transactions_of items) = Ok (L2, ws, sorted)) by (unfold load_transactions; rewrite Ea; exact E).
  destruct (load_posts_ok _ _ _ _ _ Hok El) as [Nd Hx].
  destruct (load_inv _ _ _ _ _ _ _ _ _ _ Hok Na El) as (L1' & xs' & n' & Ea' & Es & A1 & A2 & R & D & A5 & Ok2 & _).
  destruct (modify_txs_spec comm m _ _ _ _ _ _ Ok2 Nd Hx Em) as (ts' & bs & B1 & B2 & B3 & B4 & B5 & B6 & B7 & B8).
  exists (map (as_written L2) xs'), (map (as_written L2) sorted), ts', bs. split.
  { clear - R. induction R as [|t x ts xs R1 R IH]; constructor; [apply resolved_completed, R1|exact IH]. }
  split; [rewrite Es; eapply ordered_map, R|]. split; [apply Permutation_map; rewrite Es; apply stable_sort_perm|]. split; [exact B1|]. split; [exact B2|]. split; [exact B3|]. split; [exact B4|].
  intros a. rewrite drop_transactions_flat.
  assert (Ro : regs_ok L3) by (intros b; destruct (B5 b) as (K1 & K2 & K3); split; [exact K1|]; split; [exact K2|]; intros p Hp; apply K3, Hp).
  destruct (drop_list (flat_map x_posts sorted) L3 Ro) as (_ & _ & _ & _ & Dr). rewrite Dr.
  change (rest L3 (flat_map x_posts sorted) a = reg L a). rewrite B8 by (intros q Hq; exact Hq).
  pose proof (drop_load _ _ _ _ _ _ _ _ _ _ Hok Na El a) as F. rewrite drop_transactions_flat in F.
  assert (Ro2 : regs_ok L2) by (intros b; destruct (Ok2 b) as (K1 & K2 & K3); split; [exact K1|]; split; [exact K2|]; intros p Hp; apply K3, Hp).
  destruct (drop_list (flat_map x_posts sorted) L2 Ro2) as (_ & _ & _ & _ & Dr2). rewrite Dr2 in F. exact F.
Qed.
End C.
