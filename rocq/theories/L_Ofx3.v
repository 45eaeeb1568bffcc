(** Lemmas: importing twice. *)
From Coq Require Import Sorted Permutation.
From Verif Require Import Base M_Amount M_Date M_Regex M_Parser M_Names M_Ledger M_Rules M_Commands M_Ofx S_Amount S_Rules S_Books S_Ofx L_Dec L_Sort L_Amount L_Registers L_Resolve L_Resolve2 L_Load L_Move L_Rules Properties_Ledger Properties_Rules L_Ofx L_Ofx2.

(** what makes transactions alike *)
Definition face (L : ledger) (x : rtx) : Z * bytes * list (bytes * option amount) :=
  (x_posted x, x_code x, map (fun p => (rp_acc (heap L p), rp_qty (heap L p))) (x_posts x)).
Definition alikeF (f g : Z * bytes * list (bytes * option amount)) : Prop :=
  fst (fst f) = fst (fst g) /\ snd (fst f) = snd (fst g) /\
  Forall2 (fun a b => fst a = fst b /\ exists x y, snd a = Some x /\ snd b = Some y /\ same_quantity x y) (snd f) (snd g).
Lemma Forall2_map_iff {A B C D} (R : C -> D -> Prop) (f : A -> C) (g : B -> D) l : forall l', Forall2 R (map f l) (map g l') <-> Forall2 (fun a b => R (f a) (g b)) l l'.
Proof. induction l as [|a l IH]; intros [|b l']; cbn [map]; split; intros H; inversion H; subst; constructor; auto; apply IH; assumption. Qed.
Lemma alike_face L x y : alike L x y <-> alikeF (face L x) (face L y).
Proof. unfold alike, alikeF, face. cbn [fst snd]. rewrite Forall2_map_iff. cbn [fst snd]. reflexivity. Qed.
Definition scaleF (dec : bytes -> nat) (f : Z * bytes * list (bytes * option amount)) : Prop := forall a q, In (a, q) (snd f) -> exists am, q = Some am /\ a_dec am = dec a.
Lemma scale_face L dec x : (forall p, In p (x_posts x) -> exists a, rp_qty (heap L p) = Some a /\ a_dec a = dec (rp_acc (heap L p))) <-> scaleF dec (face L x).
Proof.
  unfold scaleF, face. cbn [snd]. split.
  - intros H a q I. apply in_map_iff in I as (p & E & I). injection E as <- <-. apply H, I.
  - intros H p I. apply H. apply in_map_iff. exists p. auto.
Qed.
Lemma alikeF_refl dec f : scaleF dec f -> alikeF f f.
Proof.
  intros H. split; [reflexivity|]. split; [reflexivity|]. unfold scaleF in H. induction (snd f) as [|[a q] l IH]; constructor.
  - split; [reflexivity|]. destruct (H a q (or_introl eq_refl)) as (am & -> & _). exists am, am. repeat split.
  - apply IH. intros a' q' I. apply (H a' q'). right. exact I.
Qed.
Lemma grows_face L L' x : grows L L' -> (forall p, In p (x_posts x) -> (p < nxt L)%nat) -> face L' x = face L x.
Proof. intros (_ & _ & G) H. unfold face. f_equal. apply map_ext_in. intros p I. rewrite G by (apply H, I). reflexivity. Qed.

(** *** imports do not depend on the ledger *)
Lemma first_match_det matches payee rs o o' : first_match matches payee rs o -> first_match matches payee rs o' -> o = o'.
Proof.
  assert (G : forall rs r, (exists before after, rs = before ++ r :: after /\ matches (r_pattern r) payee = true /\ forall r', In r' before -> matches (r_pattern r') payee = false) -> List.find (fun r => matches (r_pattern r) payee) rs = Some r).
  { clear. intros rs r (b & a & -> & H1 & H2). induction b as [|x b IH]; cbn [app List.find]; [rewrite H1; reflexivity|]. rewrite (H2 x (or_introl eq_refl)). apply IH. intros r' I. apply H2. right. exact I. }
  assert (G' : forall o, first_match matches payee rs o -> o = List.find (fun r => matches (r_pattern r) payee) rs).
  { intros [r|] H; [symmetry; apply G, H|]. symmetry. cbn [first_match] in H. clear -H. induction rs as [|x rs IH]; [reflexivity|]. cbn [List.find]. rewrite (H x (or_introl eq_refl)). apply IH. intros r I. apply H. right. exact I. }
  intros H H'. rewrite (G' o H), (G' o' H'). reflexivity.
Qed.
Lemma amount_down_det num den c a b : 0 < den -> amount_down num den c a -> amount_down num den c b -> a = b.
Proof. intros Hd [E1 H1] [E2 H2]. destruct a as [i ca], b as [j cb]. cbn [a_int a_com] in *. subst. f_equal. nia. Qed.
Lemma becomes_det matches comm L L' e o o' : 0 < e_den e -> becomes matches comm L e o -> becomes matches comm L' e o' -> option_map (face L) o = option_map (face L') o'.
Proof.
  intros Hd (f & F & H) (f' & F' & H'). rewrite <- (first_match_det _ _ _ _ _ F F') in H'. clear F F' f'.
  assert (G : forall x x' am am' bal bal' oth, posted_as L x (e_time e) (e_account e) oth am bal -> posted_as L' x' (e_time e) (e_account e) oth am' bal' -> am = am' ->
     x_posted x = e_time e -> x_posted x' = e_time e -> x_code x = [] -> x_code x' = [] -> face L x = face L' x').
  { intros x x' am am' bal bal' oth (p & q & _ & E & Hp & Hq) (p' & q' & _ & E' & Hp' & Hq') <- X1 X2 X3 X4. unfold face. rewrite E, E', X1, X2, X3, X4. f_equal.
    destruct (a_int am <? 0); cbn [map]; rewrite Hp, Hq, Hp', Hq'; reflexivity. }
  destruct f as [[[a|] pt ns]|].
  - destruct H as (x & am & bal & -> & A1 & A2 & A3 & A4 & A5 & A6 & A7), H' as (x' & am' & bal' & -> & B1 & B2 & B3 & B4 & B5 & B6 & B7). cbn [option_map]. f_equal. eapply G; eauto. eapply amount_down_det; eassumption.
  - subst. reflexivity.
  - destruct H as (x & am & bal & -> & A1 & A2 & A3 & A4 & A5 & A6 & A7), H' as (x' & am' & bal' & -> & B1 & B2 & B3 & B4 & B5 & B6 & B7). cbn [option_map]. f_equal. eapply G; eauto. eapply amount_down_det; eassumption.
Qed.
Section Again.
Variables (matches : bytes -> bytes -> bool) (fuel : nat) (comm : bytes -> commodity) (by_ofx_id : bytes -> option bytes).
Lemma new_again L L2 sets ars time payee num den balance r : new_transaction matches fuel comm L sets ars time payee num den balance = Ok r -> exists r2, new_transaction matches fuel comm L2 sets ars time payee num den balance = Ok r2.
Proof.
  unfold new_transaction. destruct (rule_for matches fuel sets payee (ar_rules ars)) as [found|]; [|discriminate].
  destruct (new_amount_frac num den (comm (ar_account ars))) as [am| |]; cbn [bind]; [|destruct found as [[[a|] pt ns]|]; eauto; discriminate|destruct found as [[[a|] pt ns]|]; eauto; discriminate].
  destruct (match balance with None => Ok None | Some (n, d) => do b <- new_amount_frac n d (comm (ar_account ars)); Ok (Some b) end) as [b| |]; cbn [bind].
  - intros _. destruct found as [[[a|] pt ns]|]; try (destruct (post L2 _ _ _ _ _)); eauto.
  - destruct found as [[[a|] pt ns]|]; eauto; discriminate.
  - destruct found as [[[a|] pt ns]|]; eauto; discriminate.
Qed.
Lemma recs_again sets ars payee balance l : forall L L2 r, read_recs matches fuel comm L sets ars payee balance l = Ok r -> exists r2, read_recs matches fuel comm L2 sets ars payee balance l = Ok r2.
Proof.
  induction l as [|x l IH]; intros L L2 r H; cbn [read_recs] in *; [eauto|]. unb H. destruct (new_again _ L2 _ _ _ _ _ _ _ _ E) as [r2 ->]. cbn [bind]. unb H. destruct (IH _ (fst r2) _ E0) as [r3 ->]. cbn [bind]. eauto.
Qed.
Lemma statements_again bank ri sts : forall L L2 r, read_statements matches fuel comm by_ofx_id bank L ri sts = Ok r -> exists r2, read_statements matches fuel comm by_ofx_id bank L2 ri sts = Ok r2.
Proof.
  induction sts as [|x l IH]; intros L L2 r H; cbn [read_statements] in *; [eauto|]. destruct ri as [ri|]; [|discriminate]. unb H. cbn [bind]. unb H. destruct (recs_again _ _ _ _ _ _ L2 _ E0) as [r2 ->]. cbn [bind].
  unb H. destruct (IH _ (fst r2) _ E1) as [r3 ->]. cbn [bind]. eauto.
Qed.
Lemma files_again ri fs : forall L L2 r, read_files matches fuel comm by_ofx_id L ri fs = Ok r -> exists r2, read_files matches fuel comm by_ofx_id L2 ri fs = Ok r2.
Proof.
  induction fs as [|x l IH]; intros L L2 r H; cbn [read_files] in *; [eauto|]. unb H. assert (exists r2, read_ofx matches fuel comm by_ofx_id L2 ri x = Ok r2) as [r2 ->].
  { unfold read_ofx in *. unb E. destruct (statements_again _ _ _ _ L2 _ E0) as [r2 ->]. cbn [bind]. unb E. destruct (statements_again _ _ _ _ (fst r2) _ E1) as [r3 ->]. cbn [bind]. eauto. }
  cbn [bind]. unb H. destruct (IH _ (fst r2) _ E0) as [r3 ->]. cbn [bind]. eauto.
Qed.
End Again.

(** *** resolving is determined by the text *)
Lemma one_commodity_dec comm L ids : (exists c, one_commodity comm L ids c) \/ forall c, ~ one_commodity comm L ids c.
Proof.
  destruct ids as [|p ids]; [right; intros c [H _]; congruence|]. set (c := comm (rp_acc (heap L p))).
  destruct (forallb (fun q => eq_commodity (comm (rp_acc (heap L q))) c) (p :: ids)) eqn:E.
  - left. exists c. split; [discriminate|]. intros q I. apply (proj1 (forallb_forall _ _) E) in I. apply eq_commodity_eq, I.
  - right. intros c' [_ H]. assert (c' = c) by (symmetry; apply H; left; reflexivity). subst c'. apply not_true_iff_false in E. apply E. apply forallb_forall. intros q I. apply eq_commodity_eq. apply H, I.
Qed.

Lemma map_eq_splits {A B C} (f : A -> C) (g : B -> C) l : forall m, List.length l = List.length m ->
  (forall l1 a l2 m1 b m2, l = l1 ++ a :: l2 -> m = m1 ++ b :: m2 -> List.length l1 = List.length m1 -> f a = g b) -> map f l = map g m.
Proof.
  induction l as [|a l IH]; intros [|b m] E H; try discriminate; [reflexivity|]. cbn [map]. f_equal; [apply (H [] a l [] b m); reflexivity|]. apply IH; [injection E as E; exact E|].
  intros l1 a' l2 m1 b' m2 -> -> El. apply (H (a :: l1) a' l2 (b :: m1) b' m2); [reflexivity|reflexivity|cbn; lia].
Qed.
Lemma Forall2_split {A B} (R : A -> B -> Prop) l m : Forall2 R l m -> forall m1 b m2, m = m1 ++ b :: m2 -> exists l1 a l2, l = l1 ++ a :: l2 /\ List.length l1 = List.length m1 /\ R a b.
Proof.
  intros H m1 b m2 ->. apply Forall2_app_inv_r in H as (l1 & l2 & H1 & H2 & ->). inversion H2 as [|a ? l3 ? Ha Hl]; subst. exists l1, a, l3. split; [reflexivity|]. split; [eapply Forall2_length, H1|exact Ha].
Qed.
Lemma same_split {A} (l1 : list A) a l2 m1 b m2 : l1 ++ a :: l2 = m1 ++ b :: m2 -> List.length l1 = List.length m1 -> l1 = m1 /\ a = b /\ l2 = m2.
Proof. revert m1. induction l1 as [|x l1 IH]; intros [|y m1] E El; try discriminate; [injection E as <- <-; auto|]. injection E as <- E. injection El as El. destruct (IH _ E El) as (-> & -> & ->). auto. Qed.
Lemma resolved_det find comm conv L L' t x x' : resolved find comm conv L t x -> resolved find comm conv L' t x' -> face L x = face L' x'.
Proof.
  intros (A1 & A2 & _ & _ & A5 & A6 & A7) (B1 & B2 & _ & _ & B5 & B6 & B7).
  assert (Acc : forall l1 p l2 m1 q m2, x_posts x = l1 ++ p :: l2 -> x_posts x' = m1 ++ q :: m2 -> List.length l1 = List.length m1 -> rp_acc (heap L p) = rp_acc (heap L' q)).
  { intros l1 p l2 m1 q m2 E1 E2 El. destruct (Forall2_split _ _ _ A5 _ _ _ E1) as (s1 & s & s2 & Es & Ls & Hp). destruct (Forall2_split _ _ _ B5 _ _ _ E2) as (s1' & s' & s2' & Es' & Ls' & Hq).
    rewrite Es in Es'. apply same_split in Es' as (_ & <- & _); [|lia]. destruct Hp as (_ & _ & Hp & _), Hq as (_ & _ & Hq & _). rewrite Hp in Hq. congruence. }
  assert (Ln : List.length (x_posts x) = List.length (x_posts x')) by (pose proof (Forall2_length _ _ _ A5); pose proof (Forall2_length _ _ _ B5); congruence).
  assert (Am : map (fun p => rp_acc (heap L p)) (x_posts x) = map (fun p => rp_acc (heap L' p)) (x_posts x')) by (apply map_eq_splits; assumption).
  assert (Oc : forall c, one_commodity comm L (x_posts x) c -> one_commodity comm L' (x_posts x') c).
  { intros c [N H]. split; [destruct (x_posts x), (x_posts x'); try discriminate; congruence|]. intros q I. apply (in_map (fun p => rp_acc (heap L' p))) in I. rewrite <- Am in I. apply in_map_iff in I as (p & <- & I). apply H, I. }
  unfold face. rewrite A1, B1, A2, B2. f_equal. apply map_eq_splits; [exact Ln|]. intros l1 p l2 m1 q m2 E1 E2 El. rewrite (Acc _ _ _ _ _ _ E1 E2 El). f_equal.
  destruct (Forall2_split _ _ _ A5 _ _ _ E1) as (s1 & s & s2 & Es & Ls & Hp). destruct (Forall2_split _ _ _ B5 _ _ _ E2) as (s1' & s' & s2' & Es' & Ls' & Hq).
  pose proof Es' as Es2. rewrite Es in Es2. apply same_split in Es2 as (<- & <- & <-); [|lia]. destruct Hp as (_ & _ & _ & _ & (a & Ea & Ha) & _), Hq as (_ & _ & _ & _ & (b & Eb & Hb) & _).
  destruct (ps_quantity s) as [q0|] eqn:Eq.
  - rewrite Ea, Eb, (Ha _ eq_refl), (Hb _ eq_refl). reflexivity.
  - destruct (one_commodity_dec comm L (x_posts x)) as [[c O1]|No].
    + destruct (A6 c O1) as (_ & _ & K1). destruct (B6 c (Oc c O1)) as (_ & _ & K2). destruct (K1 _ _ _ _ _ _ Es E1 Ls Eq) as (sum & S1 & S2). destruct (K2 _ _ _ _ _ _ Es E2 ltac:(lia) Eq) as (sum' & S1' & S2'). congruence.
    + specialize (A7 No). exfalso. rewrite Es in A7. unfold missing in A7. rewrite filter_app in A7. cbn [filter] in A7. rewrite Eq, app_length in A7. cbn [List.length] in A7. lia.
Qed.
(** an import, written and read back *)
Lemma resolved_import find comm conv shown L L2 k z : (forall p, In p (x_posts k) -> find (rp_acc (heap L p)) = Ok (rp_acc (heap L p)) /\ rp_qty (heap L p) <> None) ->
  noon (shown (x_posted k)) = x_posted k -> resolved find comm conv L2 (at_noon (written_on shown L k)) z -> face L2 z = face L k.
Proof.
  intros Hf Hn (A1 & A2 & _ & _ & A5 & _). unfold face. cbn [at_noon written_on as_written t_posted t_code t_postings] in *. rewrite A1, A2, Hn. f_equal.
  apply map_eq_splits; [pose proof (Forall2_length _ _ _ A5) as Q; rewrite map_length in Q; congruence|]. intros l1 p l2 m1 q m2 E1 E2 El.
  destruct (Forall2_split _ _ _ A5 _ _ _ E1) as (s1 & s & s2 & Es & Ls & Hp). rewrite E2, map_app in Es. cbn [map] in Es. apply same_split in Es as (_ & <- & _); [|rewrite map_length; lia].
  destruct Hp as (_ & _ & Hp & _ & (a & Ea & Ha) & _). cbn [ps_account ps_quantity] in *. destruct (Hf q) as [F1 F2]; [rewrite E2; apply in_elt|]. rewrite F1 in Hp. injection Hp as <-. rewrite Ea.
  destruct (rp_qty (heap L q)) as [b|]; [|congruence]. rewrite (Ha _ eq_refl). reflexivity.
Qed.
