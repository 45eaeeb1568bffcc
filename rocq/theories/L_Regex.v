(** Lemmas about the regular expression matcher. *)
From Verif Require Import Base M_Regex.

Lemma rmatch_ext {R} r : forall s cs (k k' : bytes -> caps -> option R),
  (forall s' cs', k s' cs' = k' s' cs') -> rmatch r s cs k = rmatch r s cs k'.
Proof.
  induction r; intros s cs k k' H; cbn [rmatch].
  - apply H.
  - destruct s as [|c s]; [reflexivity|]. destruct (f c); [apply H|reflexivity].
  - apply IHr1. intros. apply IHr2. exact H.
  - rewrite (IHr1 _ _ _ _ H), (IHr2 _ _ _ _ H). reflexivity.
  - rewrite (IHr _ _ _ _ H), H. reflexivity.
  - generalize (List.length s). intros n. revert s cs. induction n; intros s cs; [apply H|].
    rewrite (IHr s cs _ (fun s' cs' => if (List.length s' <? List.length s)%nat then
      (fix star (fuel : nat) (s : bytes) (cs : caps) {struct fuel} : option R :=
         match fuel with
         | O => k' s cs
         | S f => match rmatch r s cs (fun s' cs' => if (List.length s' <? List.length s)%nat then star f s' cs' else None) with
                  | Some x => Some x
                  | None => k' s cs
                  end
         end) n s' cs' else None)).
    + rewrite H. reflexivity.
    + intros s' cs'. destruct (_ <? _)%nat; [apply IHn|reflexivity].
  - apply IHr. intros. apply H.
  - destruct s; [apply H|reflexivity].
Qed.

(** greedy repetition of a character class *)
Fixpoint star_set {R} (f : ascii -> bool) (s : bytes) (cs : caps) (k : bytes -> caps -> option R) : option R :=
  match s with
  | c :: s' => if f c then match star_set f s' cs k with Some x => Some x | None => k s cs end else k s cs
  | [] => k s cs
  end.
Lemma star_set_eq {R} f s : forall cs (k : bytes -> caps -> option R),
  rmatch (RStar (RSet f)) s cs k = star_set f s cs k.
Proof.
  intros cs k. cbn [rmatch].
  assert (G : forall n s, (List.length s <= n)%nat ->
    (fix star (fuel : nat) (s0 : bytes) (cs0 : caps) {struct fuel} : option R :=
     match fuel with
     | O => k s0 cs0
     | S f0 => match match s0 with
                     | [] => None
                     | c :: s' => if f c then (if (Datatypes.length s' <? Datatypes.length s0)%nat then star f0 s' cs0 else None) else None
                     end with
               | Some x => Some x
               | None => k s0 cs0
               end
     end) n s cs = star_set f s cs k).
  { induction n; intros [|c t] Hl; cbn [star_set]; try reflexivity; [cbn in Hl; lia|].
    destruct (f c); [|reflexivity].
    replace (List.length t <? List.length (c :: t))%nat with true by (cbn [List.length]; lia).
    rewrite IHn by (cbn in Hl; lia). reflexivity. }
  apply G. lia.
Qed.

Definition hd_not (f : ascii -> bool) (s : bytes) : Prop :=
  match s with [] => True | c :: _ => f c = false end.

(** the run is taken as a whole when the continuation succeeds after it *)
Lemma star_run {R} f run : forall rest cs (k : bytes -> caps -> option R) x,
  forallb f run = true -> hd_not f rest -> k rest cs = Some x ->
  rmatch (RStar (RSet f)) (run ++ rest) cs k = Some x.
Proof.
  intros rest cs k x. rewrite star_set_eq. induction run as [|c run IH]; cbn [app forallb star_set]; intros Hr Hh Hk.
  - destruct rest as [|c r]; cbn in *; [exact Hk|]. rewrite Hh. exact Hk.
  - apply andb_true_iff in Hr as [-> Hr]. rewrite (IH Hr Hh Hk). reflexivity.
Qed.
(** and in that case the answer is the answer of the continuation *)
Lemma star_run_stop {R} f rest cs (k : bytes -> caps -> option R) :
  hd_not f rest -> rmatch (RStar (RSet f)) rest cs k = k rest cs.
Proof. rewrite star_set_eq. destruct rest; cbn; [reflexivity|]. intros ->. reflexivity. Qed.
Lemma star_none {R} f s : forall cs (k : bytes -> caps -> option R),
  (forall run rest, s = run ++ rest -> forallb f run = true -> k rest cs = None) ->
  rmatch (RStar (RSet f)) s cs k = None.
Proof.
  intros cs k. rewrite star_set_eq. induction s as [|c s IH]; intros H; cbn [star_set].
  - exact (H [] [] eq_refl eq_refl).
  - destruct (f c) eqn:Hf.
    + rewrite IH; [exact (H [] (c :: s) eq_refl eq_refl)|].
      intros run rest -> Hr. apply (H (c :: run) rest); [reflexivity|]. cbn. rewrite Hf. exact Hr.
    + exact (H [] (c :: s) eq_refl eq_refl).
Qed.
(** backing off: the continuation fails after a longer run *)
Lemma star_app {R} f run : forall rest cs (k : bytes -> caps -> option R),
  forallb f run = true ->
  rmatch (RStar (RSet f)) (run ++ rest) cs k =
  match rmatch (RStar (RSet f)) rest cs k with
  | Some x => Some x
  | None => (fix back (l : bytes) := match l with
               | [] => None
               | c :: l' => match back l' with Some x => Some x | None => k (l ++ rest) cs end
               end) run
  end.
Proof.
  intros rest cs k. rewrite !star_set_eq. induction run as [|c run IH]; cbn [app forallb star_set]; intros H.
  - destruct (star_set f rest cs k); reflexivity.
  - apply andb_true_iff in H as [-> H]. rewrite (IH H).
    destruct (star_set f rest cs k); reflexivity.
Qed.

(** captured text *)
Lemma firstn_app_len {A} (a b : list A) : firstn (List.length (a ++ b) - List.length b) (a ++ b) = a.
Proof. rewrite app_length. replace (_ - _)%nat with (List.length a) by lia. rewrite firstn_app, Nat.sub_diag, firstn_all. cbn. apply app_nil_r. Qed.

(** literals *)
Lemma eqc_same a : eqc a a = true.
Proof. apply Ascii.eqb_refl. Qed.
Lemma rlit_match {R} t : forall rest cs (k : bytes -> caps -> option R),
  rmatch (rlit t) (t ++ rest) cs k = k rest cs.
Proof.
  induction t as [|c [|c' t] IH]; intros; [reflexivity| |].
  - cbn. unfold rchar. cbn. rewrite eqc_same. reflexivity.
  - change (rlit (c :: c' :: t)) with (RSeq (rchar c) (rlit (c' :: t))). cbn [rmatch app]. unfold rchar. cbn [rmatch].
    rewrite eqc_same. apply IH.
Qed.

(** a search that matches at once *)
Lemma rsearch_here r s x : rprefix r s = Some x -> rsearch r s = Some x.
Proof. intros H. destruct s; cbn [rsearch]; rewrite H; reflexivity. Qed.

(** ** Compositional matching
    [takes r t new P]: on a text [t ++ rest] with [P rest], [r] can consume exactly [t], recording
    the captures [new], whenever what follows succeeds — and it prefers that way. *)
Definition takes (r : rx) (t : bytes) (new : caps) (P : bytes -> Prop) : Prop :=
  forall R rest cs (k : bytes -> caps -> option R) x,
    P rest -> k rest (new ++ cs) = Some x -> rmatch r (t ++ rest) cs k = Some x.
(** [r] does not match any prefix of [s] *)
Definition fails (r : rx) (s : bytes) : Prop :=
  forall R cs (k : bytes -> caps -> option R), rmatch r s cs k = None.

Lemma firstn_pre {A} (l p r : list A) : l = p ++ r -> firstn (List.length l - List.length r) l = p.
Proof. intros ->. apply firstn_app_len. Qed.

Lemma takes_weaken r t new (P Q : bytes -> Prop) : (forall s, Q s -> P s) -> takes r t new P -> takes r t new Q.
Proof. intros H HT R rest cs k x HQ. apply HT. apply H, HQ. Qed.
Lemma takes_eps P : takes REps [] [] P.
Proof. intros R rest cs k x _ H. exact H. Qed.
Lemma takes_seq a b t1 t2 c1 c2 (P1 P2 : bytes -> Prop) :
  takes a t1 c1 P1 -> takes b t2 c2 P2 -> (forall rest, P2 rest -> P1 (t2 ++ rest)) ->
  takes (RSeq a b) (t1 ++ t2) (c2 ++ c1) P2.
Proof.
  intros H1 H2 HP R rest cs k x HR HK. cbn [rmatch]. rewrite <- app_assoc.
  apply H1; [apply HP, HR|]. apply H2; [exact HR|]. rewrite app_assoc. exact HK.
Qed.
Lemma takes_grp n a t c P : takes a t c P -> takes (RGrp n a) t ((n, t) :: c) P.
Proof.
  intros H R rest cs k x HR HK. cbn [rmatch]. apply H; [exact HR|]. rewrite firstn_app_len. exact HK.
Qed.
Lemma takes_alt_l a b t c P : takes a t c P -> takes (RAlt a b) t c P.
Proof. intros H R rest cs k x HR HK. cbn [rmatch]. rewrite (H _ _ _ _ _ HR HK). reflexivity. Qed.
Lemma takes_alt_r a b t c (P : bytes -> Prop) : (forall rest, P rest -> fails a (t ++ rest)) -> takes b t c P -> takes (RAlt a b) t c P.
Proof. intros Hf H R rest cs k x HR HK. cbn [rmatch]. rewrite (Hf _ HR). apply H; assumption. Qed.
Lemma takes_opt_some a t c P : takes a t c P -> takes (ROpt a) t c P.
Proof. intros H R rest cs k x HR HK. cbn [rmatch]. rewrite (H _ _ _ _ _ HR HK). reflexivity. Qed.
Lemma takes_opt_none a (P : bytes -> Prop) : (forall rest, P rest -> fails a rest) -> takes (ROpt a) [] [] P.
Proof. intros Hf R rest cs k x HR HK. cbn [rmatch app]. rewrite (Hf _ HR). exact HK. Qed.
Lemma takes_set f c P : f c = true -> takes (RSet f) [c] [] P.
Proof. intros H R rest cs k x _ HK. cbn. rewrite H. exact HK. Qed.
Lemma takes_char c P : takes (rchar c) [c] [] P.
Proof. apply takes_set, eqc_same. Qed.
Lemma takes_lit t P : takes (rlit t) t [] P.
Proof. intros R rest cs k x _ HK. rewrite rlit_match. exact HK. Qed.
Lemma takes_star f run (P : bytes -> Prop) : forallb f run = true -> (forall rest, P rest -> hd_not f rest) -> takes (RStar (RSet f)) run [] P.
Proof. intros Hr HP R rest cs k x HR HK. apply star_run; auto. Qed.
Lemma takes_plus f run (P : bytes -> Prop) : run <> [] -> forallb f run = true -> (forall rest, P rest -> hd_not f rest) -> takes (rplus (RSet f)) run [] P.
Proof.
  intros Hn Hr HP. destruct run as [|c run]; [congruence|]. cbn [forallb] in Hr. apply andb_true_iff in Hr as [Hc Hr].
  change (c :: run) with ([c] ++ run). change (@nil (string * bytes)) with (@nil (string * bytes) ++ []).
  eapply takes_seq; [apply (takes_set _ _ (fun _ => True)), Hc|apply takes_star; eassumption|]. intros; exact I.
Qed.
Lemma takes_end : takes REnd [] [] (fun s => s = []).
Proof. intros R rest cs k x -> HK. exact HK. Qed.

Lemma fails_set f s : hd_not f s -> fails (RSet f) s.
Proof. intros H R cs k. destruct s as [|c s]; cbn in *; [reflexivity|]. rewrite H. reflexivity. Qed.
Lemma fails_seq_l a b s : fails a s -> fails (RSeq a b) s.
Proof. intros H R cs k. cbn [rmatch]. apply H. Qed.
Lemma fails_grp n a s : fails a s -> fails (RGrp n a) s.
Proof. intros H R cs k. cbn [rmatch]. apply H. Qed.
Lemma fails_alt a b s : fails a s -> fails b s -> fails (RAlt a b) s.
Proof. intros H1 H2 R cs k. cbn [rmatch]. rewrite H1. apply H2. Qed.
Lemma fails_opt_seq a b s : fails a s -> fails b s -> fails (RSeq (ROpt a) b) s.
Proof. intros H1 H2 R cs k. cbn [rmatch]. rewrite H1. apply H2. Qed.
(** a run of [f] followed by something that never matches at or inside the run *)
Lemma fails_star_seq f b s :
  (forall run rest, s = run ++ rest -> forallb f run = true -> fails b rest) -> fails (RSeq (RStar (RSet f)) b) s.
Proof.
  intros H R cs k. cbn [rmatch]. change (rmatch (RStar (RSet f)) s cs (fun s' cs' => rmatch b s' cs' k) = None).
  apply star_none. intros run rest E Hr. apply (H _ _ E Hr).
Qed.
Lemma fails_plus_seq f b s :
  (forall run rest, s = run ++ rest -> run <> [] -> forallb f run = true -> fails b rest) ->
  fails (RSeq (rplus (RSet f)) b) s.
Proof.
  intros H R cs k. cbn [rmatch rplus]. destruct s as [|c s]; [reflexivity|]. destruct (f c) eqn:Hc; [|reflexivity].
  change (rmatch (RStar (RSet f)) s cs (fun s' cs' => rmatch b s' cs' k) = None).
  apply star_none. intros run rest -> Hr. apply (H (c :: run) rest); [reflexivity|discriminate|].
  cbn. rewrite Hc. exact Hr.
Qed.
Lemma fails_set_seq_r f b c s : fails b s -> fails (RSeq (RSet f) b) (c :: s).
Proof. intros H R cs k. cbn [rmatch]. destruct (f c); [apply H|reflexivity]. Qed.

Lemma takes_prefix r t new (P : bytes -> Prop) rest :
  takes r t new P -> P rest -> rprefix r (t ++ rest) = Some (rest, new ++ []).
Proof. intros H HP. unfold rprefix. apply H; [exact HP|reflexivity]. Qed.
Lemma takes_search r t new (P : bytes -> Prop) rest :
  takes r t new P -> P rest -> rsearch r (t ++ rest) = Some (rest, new).
Proof. intros H HP. apply rsearch_here. rewrite (takes_prefix _ _ _ _ _ H HP). rewrite app_nil_r. reflexivity. Qed.

(** ** repetition of a group *)
Section Star.
Variables (R : Type) (a : rx) (k : bytes -> caps -> option R).
Fixpoint star_fuel (fuel : nat) (s : bytes) (cs : caps) {struct fuel} : option R :=
  match fuel with
  | O => k s cs
  | S f => match rmatch a s cs (fun s' cs' => if (List.length s' <? List.length s)%nat then star_fuel f s' cs' else None) with
           | Some x => Some x
           | None => k s cs
           end
  end.
Lemma star_is_fuel s cs : rmatch (RStar a) s cs k = star_fuel (List.length s) s cs.
Proof. reflexivity. Qed.
Lemma star_fuel_enough : forall f f' s cs, (List.length s <= f)%nat -> (List.length s <= f')%nat -> star_fuel f s cs = star_fuel f' s cs.
Proof.
  assert (G0 : forall f s cs, List.length s = O -> star_fuel f s cs = star_fuel 0 s cs).
  { intros f s cs Hs. destruct f; [reflexivity|]. cbn [star_fuel].
    rewrite (rmatch_ext a s cs _ (fun _ _ => None)).
    - assert (N : forall r s cs, @rmatch R r s cs (fun _ _ => None) = None).
      { clear. induction r; intros s cs; cbn [rmatch]; auto.
        - destruct s; [reflexivity|]. destruct (f _); reflexivity.
        - rewrite (rmatch_ext r1 s cs _ (fun _ _ => None)); auto.
        - rewrite IHr1. apply IHr2.
        - rewrite IHr. reflexivity.
        - generalize (List.length s). intros n. revert s cs. induction n; intros; [reflexivity|].
          rewrite (rmatch_ext r s cs _ (fun _ _ => None)); [rewrite IHr; reflexivity|]. intros. destruct (_ <? _)%nat; auto.
        - destruct s; reflexivity. }
      rewrite N. reflexivity.
    - intros s' cs'. replace (List.length s' <? List.length s)%nat with false by lia. reflexivity. }
  induction f as [|f IH]; intros f' s cs H1 H2.
  - symmetry. apply G0. lia.
  - destruct f' as [|f']; [apply G0; lia|]. cbn [star_fuel].
    rewrite (rmatch_ext a s cs _ (fun s' cs' => if (List.length s' <? List.length s)%nat then star_fuel f' s' cs' else None)); [reflexivity|].
    intros s' cs'. destruct (List.length s' <? List.length s)%nat eqn:E; [|reflexivity]. apply IH; lia.
Qed.
Lemma star_unfold s cs : rmatch (RStar a) s cs k =
  match rmatch a s cs (fun s' cs' => if (List.length s' <? List.length s)%nat then rmatch (RStar a) s' cs' k else None) with
  | Some x => Some x
  | None => k s cs
  end.
Proof.
  rewrite star_is_fuel. rewrite (star_fuel_enough _ (S (List.length s))) by lia. cbn [star_fuel].
  rewrite (rmatch_ext a s cs _ (fun s' cs' => if (List.length s' <? List.length s)%nat then rmatch (RStar a) s' cs' k else None)); [reflexivity|].
  intros s' cs'. destruct (List.length s' <? List.length s)%nat eqn:E; [|reflexivity]. rewrite star_is_fuel. apply star_fuel_enough; lia.
Qed.
End Star.
Lemma takes_star_nil a (P : bytes -> Prop) : (forall rest, P rest -> fails a rest) -> takes (RStar a) [] [] P.
Proof. intros H R rest cs k x HR HK. cbn [app]. rewrite star_unfold, (H _ HR). exact HK. Qed.
Lemma takes_star_cons a t1 t2 c1 c2 (P1 P2 : bytes -> Prop) : t1 <> [] ->
  takes a t1 c1 P1 -> takes (RStar a) t2 c2 P2 -> (forall rest, P2 rest -> P1 (t2 ++ rest)) ->
  takes (RStar a) (t1 ++ t2) (c2 ++ c1) P2.
Proof.
  intros Hn H1 H2 HP R rest cs k x HR HK. rewrite star_unfold, <- app_assoc.
  rewrite (H1 _ (t2 ++ rest) cs _ x (HP _ HR)); [reflexivity|].
  replace (_ <? _)%nat with true by (rewrite (app_length t1); destruct t1; [congruence|cbn [List.length]; lia]).
  apply H2; [exact HR|]. rewrite app_assoc. exact HK.
Qed.
Lemma takes_eq r t t' c c' (P : bytes -> Prop) : takes r t c P -> t = t' -> c = c' -> takes r t' c' P.
Proof. intros H <- <-. exact H. Qed.
Definition hd_is (f : ascii -> bool) (s : bytes) : Prop := match s with [] => False | c :: _ => f c = true end.
Lemma hd_is_not (f g : ascii -> bool) s : (forall c, f c = true -> g c = false) -> hd_is f s -> hd_not g s.
Proof. intros H. destruct s; cbn; auto. Qed.
Lemma hd_is_app f a b : hd_is f a -> hd_is f (a ++ b).
Proof. destruct a; cbn; tauto. Qed.
