(** Tags. *)
From Coq Require Import Permutation Sorted.
From Verif Require Import Base M_Regex M_Parser M_Names M_Writer M_Tags L_Dec L_Sort L_Names L_Regex L_RegexSound.
Arguments eqc : simpl never. Arguments is_space : simpl never. Arguments is_acc : simpl never.

Lemma star_prio {R} f s : forall cs (k : bytes -> caps -> option R) x, rmatch (RStar (RSet f)) s cs k = Some x ->
  exists run rest, s = run ++ rest /\ forallb f run = true /\ k rest cs = Some x /\
    (forall c rest', rest = c :: rest' -> f c = true -> k rest' cs = None).
Proof.
  intros cs k x. rewrite star_set_eq. induction s as [|c s IH]; cbn [star_set]; intros H.
  - exists [], []. repeat split; auto. discriminate.
  - destruct (f c) eqn:E.
    + destruct (star_set f s cs k) eqn:E1.
      * injection H as <-. destruct (IH eq_refl) as (run & rest & -> & Hr & Hk & Hp). exists (c :: run), rest. cbn. rewrite E. auto.
      * exists [], (c :: s). repeat split; auto. intros c' r' E2 _. injection E2 as <- <-.
        destruct s as [|d s]; cbn [star_set] in E1; [exact E1|]. destruct (f d); [|exact E1]. destruct (star_set f s cs k); [discriminate|exact E1].
    + exists [], (c :: s). repeat split; auto. intros c' r' E2 F. injection E2 as <- <-. congruence.
Qed.

(** ** What the parser can produce *)
Definition key_ok (k : bytes) : Prop := k <> [] /\ forallb is_acc k = true.
Definition value_ok (v : bytes) : Prop :=
  v = [] \/ exists a c, v = a ++ [c] /\ a <> [] /\ ~ In ","%char a /\ is_space c = false /\
    (hd_not is_space a \/ exists s, a = [s]).
Definition nc : ascii -> bool := fun c => negb (eqc c ","%char).
Definition rx_after : rx := rseq [RGrp "value" (RSeq (rplus (RSet nc)) S_); RStar s_; RAlt (rchar ","%char) REnd].
Lemma nc_notin a : forallb nc a = true <-> ~ In ","%char a.
Proof.
  induction a as [|c a IH]; cbn; [tauto|]. rewrite andb_true_iff, IH. unfold nc at 1. rewrite negb_true_iff. split.
  - intros [H1 H2] [->|H3]; [rewrite eqc_same in H1; discriminate|auto].
  - intros H. split; [|auto]. destruct (eqc c ","%char) eqn:E; [|reflexivity]. apply Ascii.eqb_eq in E. exfalso. auto.
Qed.
Lemma after_inv s s' n : mt rx_after s s' n -> exists a c sp tl, s = a ++ c :: sp ++ tl /\ a <> [] /\ ~ In ","%char a /\ is_space c = false /\
  forallb is_space sp = true /\ (tl = ","%char :: s' \/ (tl = [] /\ s' = [])) /\ n = [("value"%string, a ++ [c])].
Proof.
  intros H. apply mt_seq_inv in H as (s1 & n1 & n2 & H1 & H2 & ->).
  apply mt_grp_inv in H1 as (t & n' & -> & H1 & ->). apply mt_seq_inv in H1 as (s2 & n3 & n4 & H3 & H4 & ->).
  apply mt_plus_set_inv in H3 as (run & Hr & E & Hf & ->). apply mt_set_inv in H4 as (c & -> & Hc & ->).
  apply mt_seq_inv in H2 as (s3 & n5 & n6 & H5 & H6 & ->). apply mt_star_set_inv in H5 as (sp & -> & Hsp & ->).
  assert (t = run ++ [c]). { apply app_inv_tail with (sp ++ s3). rewrite <- app_assoc. exact E. }
  subst t. exists run, c, sp, s3. split; [rewrite <- app_assoc; reflexivity|]. split; [exact Hr|]. split; [apply nc_notin, Hf|].
  split; [apply negb_true_iff, Hc|]. split; [exact Hsp|].
  apply mt_alt_inv in H6 as [H6|H6].
  - apply mt_set_inv in H6 as (d & -> & Hd & ->). apply Ascii.eqb_eq in Hd. subst d. auto.
  - inversion H6; subst. auto.
Qed.
Lemma after_intro a c sp tl s' : a <> [] -> ~ In ","%char a -> is_space c = false -> forallb is_space sp = true ->
  (tl = ","%char :: s' \/ (tl = [] /\ s' = [])) -> exists n, mt rx_after (a ++ c :: sp ++ tl) s' n.
Proof.
  intros Ha Hn Hc Hsp Ht. destruct a as [|x a]; [congruence|]. apply nc_notin in Hn. cbn in Hn. apply andb_prop in Hn as [Hx Hn].
  assert (St : forall f run rest, forallb f run = true -> mt (RStar (RSet f)) (run ++ rest) rest []).
  { clear. induction run as [|y run IH]; intros rest H; [apply mt_star_nil|]. cbn in H. apply andb_prop in H as [H1 H2].
    change (@nil (string * bytes)) with (@nil (string * bytes) ++ []). econstructor; [apply mt_set, H1|apply IH, H2]. }
  eexists. eapply mt_seq.
  - apply mt_grp. eapply mt_seq; [eapply mt_seq; [apply mt_set, Hx|apply St, Hn]|]. apply mt_set. unfold negb. rewrite Hc. reflexivity.
  - eapply mt_seq; [apply St, Hsp|]. destruct Ht as [->|[-> ->]]; [apply mt_alt_l, mt_set, eqc_same|apply mt_alt_r, mt_end].
Qed.

Lemma tag_parsed s rest cs : rprefix tagREX s = Some (rest, cs) ->
  key_ok (cap "key" cs) /\ value_ok (cap "value" cs) /\ (List.length rest < List.length s)%nat.
Proof.
  unfold rprefix. intros H.
  assert (L : (List.length rest < List.length s)%nat).
  { apply rmatch_sound in H as (s' & n & M & E). rewrite app_nil_r in E. injection E as <- <-. apply mt_seq_inv in M as (s1 & n1 & n2 & H1 & H2 & _).
    apply mt_set_inv in H1 as (c & -> & _ & _). apply mt_suffix in H2 as (t & ->). cbn. rewrite app_length. lia. }
  assert (exists v k, cs = v ++ [("key"%string, k)] /\ key_ok k /\ (v = [] \/ exists w, v = [("value"%string, w)] /\ value_ok w)) as (v & k & -> & Hk & Hv).
  2:{ destruct Hv as [->|(w & -> & Hw)]; cbn; repeat split; auto; try apply Hk. left. reflexivity. }
  change tagREX with (RSeq (rchar "#"%char) (RSeq (RGrp "key" (rplus (RSet is_acc))) (ROpt rx_tag_value))) in H.
  cbn [rmatch] in H. change (rmatch (rchar "#"%char) s [] (fun s' cs' => rmatch (RGrp "key" (rplus (RSet is_acc))) s' cs' (fun s'' cs'' => rmatch (ROpt rx_tag_value) s'' cs'' (fun s0 c0 => Some (s0, c0)))) = Some (rest, cs)) in H.
  apply rmatch_sound in H as (s1 & n1 & M1 & H). apply mt_set_inv in M1 as (c & -> & _ & ->).
  apply rmatch_sound in H as (s2 & n2 & M2 & H). apply mt_grp_inv in M2 as (k & n3 & -> & M2 & ->).
  apply mt_plus_set_inv in M2 as (run & Hr & E & Hf & ->). apply app_inv_tail in E. subst run.
  cbn [app] in H.
  change (rmatch (ROpt rx_tag_value) s2 [("key"%string, k)] (fun s0 c0 => Some (s0, c0))) with
    (match rmatch rx_tag_value s2 [("key"%string, k)] (fun s0 c0 => Some (s0, c0)) with Some x => Some x | None => Some (s2, [("key"%string, k)]) end) in H.
  destruct (rmatch rx_tag_value s2 _ _) as [x|] eqn:E.
  2:{ injection H as <- <-. exists [], k. repeat split; auto. }
  injection H as ->. 
  change rx_tag_value with (RSeq (rchar ":"%char) (RSeq (RStar s_) rx_after)) in E.
  change (rmatch (rchar ":"%char) s2 [("key"%string, k)] (fun s' cs' => rmatch (RStar s_) s' cs' (fun s'' cs'' => rmatch rx_after s'' cs'' (fun s0 c0 => Some (s0, c0)))) = Some (rest, cs)) in E.
  apply rmatch_sound in E as (s3 & n3 & M3 & E). apply mt_set_inv in M3 as (c3 & -> & _ & ->). cbn [app] in E.
  apply star_prio in E as (run & r & -> & Hrun & E & Hp).
  apply rmatch_sound in E as (s4 & n4 & M4 & E). injection E as <- <-.
  apply after_inv in M4 as (a & d & sp & tl & -> & Ha & Hn & Hd & Hsp & Ht & ->).
  exists [("value"%string, a ++ [d])], k. split; [reflexivity|]. split; [split; assumption|]. right. eexists. split; [reflexivity|].
  right. exists a, d. repeat split; auto. destruct a as [|x a]; [congruence|]. destruct a as [|y a]; [eauto|]. left. cbn.
  destruct (is_space x) eqn:Ex; [|reflexivity]. exfalso.
  destruct (after_intro (y :: a) d sp tl s4) as (n & M); auto; [discriminate|intros Hi; apply Hn; right; exact Hi|].
  specialize (Hp x _ eq_refl Ex). revert Hp. eapply (rmatch_complete _ _ _ _ M); [|discriminate]. intros ? ? ? F. discriminate.
Qed.
Lemma tag_search_parsed s rest cs : rsearch tagREX s = Some (rest, cs) -> key_ok (cap "key" cs) /\ value_ok (cap "value" cs).
Proof.
  induction s as [|c s IH]; cbn [rsearch]; intros H.
  - destruct (rprefix tagREX []) eqn:E; [|discriminate]. injection H as ->. apply tag_parsed in E. tauto.
  - destruct (rprefix tagREX (c :: s)) eqn:E; [|auto]. injection H as ->. apply tag_parsed in E. tauto.
Qed.
Lemma find_all_ok f : forall s, Forall (fun cs => key_ok (cap "key" cs) /\ value_ok (cap "value" cs)) (find_all f tagREX s).
Proof.
  induction f; intros s; cbn [find_all]; [constructor|]. destruct (rsearch tagREX s) as [[rest cs]|] eqn:E; [|constructor].
  constructor; [eapply tag_search_parsed, E|apply IHf].
Qed.
Definition tags_ok (t : tags) : Prop := NoDup (map fst t) /\ Forall (fun kv => key_ok (fst kv) /\ value_ok (snd kv)) t.
Lemma tag_set_in k v t x : In x (map fst (tag_set k v t)) <-> x = k \/ In x (map fst t).
Proof.
  induction t as [|[k' v'] t IH]; cbn; [intuition|]. destruct (eqb_bytes k k') eqn:E; cbn.
  - apply eqb_bytes_eq in E. subst. intuition.
  - rewrite IH. intuition.
Qed.
Lemma tag_set_ok k v t : key_ok k -> value_ok v -> tags_ok t -> tags_ok (tag_set k v t).
Proof.
  intros Hk Hv [Hn Hf]. split.
  - clear Hf. induction t as [|[k' v'] t IH]; cbn; [repeat constructor; intros []|]. cbn in Hn. inversion Hn; subst.
    destruct (eqb_bytes k k') eqn:E; cbn; [constructor; assumption|]. constructor; [|auto]. rewrite tag_set_in. intros [->|F]; [|contradiction].
    rewrite (proj2 (eqb_bytes_eq k k) eq_refl) in E. discriminate.
  - clear Hn. induction Hf as [|p t Hp Hf IH]; cbn; [constructor; [split; assumption|constructor]|]. destruct p as [k1 v1], Hp. destruct (eqb_bytes k k1); constructor; cbn; auto.
Qed.
Lemma set_all_ok kvs : forall t, Forall (fun kv => key_ok (fst kv) /\ value_ok (snd kv)) kvs -> tags_ok t -> tags_ok (set_all t kvs).
Proof. induction kvs as [|[k v] kvs IH]; intros t H Ht; cbn; [exact Ht|]. inversion H as [|? ? [? ?] ?]; subst. apply IH; auto. apply tag_set_ok; auto. Qed.
Lemma line_tags_ok l : Forall (fun kv => key_ok (fst kv) /\ value_ok (snd kv)) (line_tags l).
Proof. unfold line_tags. apply Forall_map. eapply Forall_impl; [|apply find_all_ok]. auto. Qed.
Lemma parse_tags_ok lines : tags_ok (parse_tags lines).
Proof.
  unfold parse_tags. assert (G : forall t, tags_ok t -> tags_ok (fold_left (fun t l => set_all t (line_tags l)) lines t)).
  { induction lines as [|l lines IH]; intros t H; cbn; [exact H|]. apply IH, set_all_ok; [apply line_tags_ok|exact H]. }
  apply G. split; constructor.
Qed.

(** ** Reading a generated tag *)
Definition tag_follow (rest : bytes) : Prop := rest = [] \/ exists r, rest = B ", #" ++ r.
Definition after_tag (v rest : bytes) : bytes := match v with [] => rest | _ => tl rest end.
Lemma star_back {R} f a c rest cs (k : bytes -> caps -> option R) y : forallb f a = true -> f c = true ->
  rmatch (RStar (RSet f)) rest cs k = None -> k (c :: rest) cs = Some y ->
  rmatch (RStar (RSet f)) (a ++ c :: rest) cs k = Some y.
Proof.
  rewrite !star_set_eq. induction a as [|x a IH]; cbn [app forallb star_set]; intros Ha Hc Hr Hk.
  - rewrite Hc, Hr. exact Hk.
  - apply andb_prop in Ha as [-> Ha]. rewrite IH; auto.
Qed.
Lemma value_read {R} a c rest cs (k : bytes -> caps -> option R) : a <> [] -> ~ In ","%char a -> is_space c = false ->
  (forall r cs, k r cs <> None) -> tag_follow rest ->
  rmatch rx_after (a ++ c :: rest) cs k = k (tl rest) (("value"%string, a ++ [c]) :: cs).
Proof.
  intros Ha Hn Hc Hk Hf. destruct a as [|x a]; [congruence|]. apply nc_notin in Hn. cbn [forallb] in Hn. apply andb_prop in Hn as [Hx Hn].
  set (K := fun (s' : bytes) cs' => rmatch (RSeq (RStar s_) (RAlt (rchar ","%char) REnd)) s' cs' k).
  set (txt := (x :: a) ++ c :: rest).
  set (K1 := fun (s' : bytes) cs' => K s' (("value"%string, firstn (List.length txt - List.length s') txt) :: cs')).
  assert (E : rmatch rx_after txt cs k = rmatch (RStar (RSet nc)) (a ++ c :: rest) cs (fun s' cs' => rmatch S_ s' cs' K1)).
  { unfold rx_after. cbn [rseq rmatch]. unfold rplus. unfold txt at 1. cbn [app rmatch]. rewrite Hx. reflexivity. }
  fold txt. rewrite E. clear E.
  assert (G : K1 rest cs = k (tl rest) (("value"%string, (x :: a) ++ [c]) :: cs)).
  { unfold K1. replace (firstn _ txt) with ((x :: a) ++ [c]).
    2:{ symmetry. apply firstn_pre. unfold txt. rewrite <- app_assoc. reflexivity. }
    unfold K. change (rmatch (RStar s_) rest (("value"%string, (x :: a) ++ [c]) :: cs) (fun s' cs' => rmatch (RAlt (rchar ","%char) REnd) s' cs' k) = k (tl rest) (("value"%string, (x :: a) ++ [c]) :: cs)).
    unfold s_. rewrite star_run_stop by (destruct Hf as [->|(r & ->)]; reflexivity).
    destruct Hf as [->|(r & ->)]; [reflexivity|]. cbn [B list_ascii_of_string app tl rmatch]. unfold rchar. cbn [rmatch]. rewrite eqc_same.
    destruct (k _ _) eqn:F; [reflexivity|]. exfalso. eapply Hk, F. }
  assert (Gs : rmatch S_ (c :: rest) cs K1 = K1 rest cs). { cbn [S_ rmatch]. rewrite Hc. reflexivity. }
  assert (Gn : k (tl rest) (("value"%string, (x :: a) ++ [c]) :: cs) <> None) by apply Hk.
  destruct (eqc c ","%char) eqn:Ec.
  - destruct (k (tl rest) (("value"%string, (x :: a) ++ [c]) :: cs)) as [y|] eqn:Ey; [|congruence].
    apply star_run; [exact Hn|cbn; unfold nc; rewrite Ec; reflexivity|]. rewrite Gs. exact G.
  - assert (F : rmatch S_ rest cs K1 = None).
    { clear -Hf. destruct Hf as [->|(r & ->)]; [reflexivity|].
      change (K1 ([" "%char] ++ "#"%char :: r) cs = None). unfold K1, K. generalize (firstn (List.length txt - List.length ([" "%char] ++ "#"%char :: r)) txt). intros u.
      change (rmatch (RStar (RSet is_space)) ([" "%char] ++ "#"%char :: r) (("value"%string, u) :: cs) (fun s'' cs'' => rmatch (RAlt (rchar ","%char) REnd) s'' cs'' k) = None).
      rewrite star_app by reflexivity. rewrite star_run_stop by reflexivity. reflexivity. }
    destruct (k (tl rest) (("value"%string, (x :: a) ++ [c]) :: cs)) as [y|] eqn:Ey; [|congruence].
    apply star_back; auto.
    + unfold nc. rewrite Ec. reflexivity.
    + rewrite star_run_stop by (destruct Hf as [->|(r & ->)]; reflexivity). exact F.
    + rewrite Gs. exact G.
Qed.
Lemma one_char_fails {R} c rest cs (k : bytes -> caps -> option R) : is_space c = false -> tag_follow rest ->
  rmatch rx_after (c :: rest) cs k = None.
Proof.
  intros Hc Hf. destruct (rmatch rx_after (c :: rest) cs k) as [y0|] eqn:E; [|reflexivity]. exfalso.
  apply rmatch_sound in E as (s' & n & M & _). apply after_inv in M as (a & d & sp & tl & E & Ha & Hn & Hd & Hsp & Ht & _).
  destruct a as [|x a]; [congruence|]. injection E as <- E.
  destruct Hf as [->|(r & ->)]; [destruct a; discriminate|]. change (B ", #" ++ r) with (","%char :: " "%char :: "#"%char :: r) in E.
  destruct a as [|y a]; [|injection E as <- E; apply Hn; right; left; reflexivity].
  injection E as <- E. destruct sp as [|s1 sp].
  - cbn in E. destruct Ht as [->|[-> _]]; discriminate.
  - injection E as <- E. destruct sp as [|s2 sp].
    + cbn in E. destruct Ht as [->|[-> _]]; discriminate.
    + injection E as <- E. discriminate.
Qed.
Lemma hd_is_dec_space a : a <> [] -> hd_not is_space a \/ exists s a', a = s :: a' /\ is_space s = true.
Proof. destruct a as [|s a]; [congruence|]. intros _. cbn. destruct (is_space s) eqn:E; eauto. Qed.
Lemma tag_read k v rest : key_ok k -> value_ok v -> tag_follow rest ->
  exists cs, rprefix tagREX (tag_text (k, v) ++ rest) = Some (after_tag v rest, cs) /\ cap "key" cs = k /\ cap "value" cs = v.
Proof.
  intros [Hk1 Hk2] Hv Hf.
  assert (HK : forall tlx x, hd_not is_acc tlx -> rmatch (ROpt rx_tag_value) tlx [("key"%string, k)] (fun s0 c0 => Some (s0, c0)) = Some x ->
    rprefix tagREX ("#"%char :: k ++ tlx) = Some x).
  { intros tlx x Hh H. unfold rprefix.
    change (rmatch (RGrp "key" (rplus (RSet is_acc))) (k ++ tlx) [] (fun s'' cs'' => rmatch (ROpt rx_tag_value) s'' cs'' (fun s0 c0 => Some (s0, c0))) = Some x).
    assert (T : takes (RGrp "key" (rplus (RSet is_acc))) k [("key"%string, k)] (hd_not is_acc)).
    { apply takes_grp with (c := []), takes_plus; auto. }
    apply T; [exact Hh|]. exact H. }
  unfold tag_text. cbn [fst snd]. destruct v as [|v0 v1] eqn:Ev.
  - exists [("key"%string, k)]. rewrite app_nil_r. split; [|split; reflexivity]. apply (HK rest).
    + destruct Hf as [->|(r & ->)]; [exact I|reflexivity].
    + destruct Hf as [->|(r & ->)]; reflexivity.
  - rewrite <- Ev in *. assert (v <> []) by (rewrite Ev; discriminate). clear Ev v0 v1.
    destruct Hv as [->|(a & c & -> & Ha & Hn & Hc & Hsp)]; [congruence|].
    exists [("value"%string, a ++ [c]); ("key"%string, k)]. split; [|split; reflexivity].
    replace (B "#" ++ k ++ B ":" ++ a ++ [c]) with ("#"%char :: k ++ ":"%char :: a ++ [c]) by reflexivity.
    replace (("#"%char :: k ++ ":"%char :: a ++ [c]) ++ rest) with ("#"%char :: k ++ ":"%char :: a ++ c :: rest)
      by (cbn; rewrite <- !app_assoc; cbn; rewrite <- app_assoc; reflexivity).
    apply HK; [reflexivity|].
    assert (E : rmatch (RStar s_) (a ++ c :: rest) [("key"%string, k)] (fun s'' cs'' => rmatch rx_after s'' cs'' (fun s0 c0 => Some (s0, c0)))
       = Some (tl rest, [("value"%string, a ++ [c]); ("key"%string, k)])).
    { assert (V : rmatch rx_after (a ++ c :: rest) [("key"%string, k)] (fun s0 c0 => Some (s0, c0)) = Some (tl rest, [("value"%string, a ++ [c]); ("key"%string, k)])).
      { apply (value_read a c rest [("key"%string, k)] (fun s0 c0 => Some (s0, c0))); auto. discriminate. }
      destruct (hd_is_dec_space a Ha) as [Hh|(s & a' & -> & Hs)].
      - unfold s_. rewrite star_run_stop; [exact V|]. destruct a; [congruence|exact Hh].
      - destruct Hsp as [Hh|(s1 & E)]; [cbn in Hh; congruence|]. injection E as <- ->.
        unfold s_. apply (star_back is_space [] s (c :: rest)); auto.
        rewrite star_run_stop by exact Hc. apply one_char_fails; assumption. }
    cbn [rmatch]. change (match rmatch rx_tag_value (":"%char :: a ++ c :: rest) [("key"%string, k)] (fun s0 c0 => Some (s0, c0)) with Some x => Some x | None => Some (":"%char :: a ++ c :: rest, [("key"%string, k)]) end = Some (after_tag (a ++ [c]) rest, [("value"%string, a ++ [c]); ("key"%string, k)])).
    change (rmatch rx_tag_value (":"%char :: a ++ c :: rest) [("key"%string, k)] (fun s0 c0 => Some (s0, c0))) with
      (rmatch (RStar s_) (a ++ c :: rest) [("key"%string, k)] (fun s'' cs'' => rmatch rx_after s'' cs'' (fun s0 c0 => Some (s0, c0)))).
    rewrite E. unfold after_tag. destruct (a ++ [c]) eqn:F; [destruct a; discriminate|reflexivity].
Qed.
Lemma skip_char c s : c <> "#"%char -> rsearch tagREX (c :: s) = rsearch tagREX s.
Proof.
  intros H. assert (E : rprefix tagREX (c :: s) = None).
  { unfold rprefix, tagREX. cbn [rseq rmatch rchar]. destruct (eqc "#"%char c) eqn:F; [apply Ascii.eqb_eq in F; congruence|reflexivity]. }
  cbn [rsearch]. rewrite E. reflexivity.
Qed.
Definition text_of_tags (kvs : tags) : bytes := join (B ", ") (map tag_text kvs).
Lemma text_of_tags_cons kv kvs : exists rest, text_of_tags (kv :: kvs) = tag_text kv ++ rest /\
  (kvs = [] /\ rest = [] \/ kvs <> [] /\ rest = B ", " ++ text_of_tags kvs) /\ tag_follow rest.
Proof.
  destruct kvs as [|kv2 kvs].
  - exists []. unfold text_of_tags. cbn. rewrite app_nil_r. split; [reflexivity|]. split; [left; auto|left; reflexivity].
  - exists (B ", " ++ text_of_tags (kv2 :: kvs)). split; [reflexivity|]. split; [right; split; [discriminate|reflexivity]|]. right.
    unfold text_of_tags. cbn [map join]. destruct (map tag_text kvs); unfold tag_text; eexists; cbn; reflexivity.
Qed.
Lemma read_tags kvs : Forall (fun kv => key_ok (fst kv) /\ value_ok (snd kv)) kvs ->
  forall f pre, (kvs = [] /\ pre = [] \/ kvs <> [] /\ forallb (fun c => negb (eqc "#"%char c)) pre = true) ->
  (List.length kvs <= f)%nat ->
  map (fun cs => (cap "key" cs, cap "value" cs)) (find_all f tagREX (pre ++ text_of_tags kvs)) = kvs.
Proof.
  induction 1 as [|[k v] kvs [Hk Hv] HF IH]; intros f pre Hpre Hf.
  - destruct Hpre as [[_ ->]|[? _]]; [|congruence]. destruct f; reflexivity.
  - destruct f as [|f]; [cbn in Hf; lia|]. cbn [List.length] in Hf.
    destruct Hpre as [[? _]|[_ Hpre]]; [discriminate|]. cbn [find_all].
    assert (ES : rsearch tagREX (pre ++ text_of_tags ((k, v) :: kvs)) = rsearch tagREX (text_of_tags ((k, v) :: kvs))).
    { clear -Hpre. induction pre as [|c pre IHp]; [reflexivity|]. cbn [forallb] in Hpre. apply andb_prop in Hpre as [Hc Hp].
      cbn [app]. rewrite skip_char; [auto|]. intros ->. rewrite eqc_same in Hc. discriminate. }
    rewrite ES. clear ES Hpre. destruct (text_of_tags_cons (k, v) kvs) as (rest & -> & Hrest & Hfol).
    destruct (tag_read k v rest Hk Hv Hfol) as (cs & E & Ek & Ev). rewrite (rsearch_here _ _ _ E). cbn [map]. rewrite Ek, Ev. f_equal.
    destruct Hrest as [[-> ->]|[Hne ->]].
    + replace (after_tag v []) with ([] ++ text_of_tags []) by (destruct v; reflexivity). apply IH; [left; auto|lia].
    + destruct v as [|v0 v1].
      * cbn [after_tag]. apply IH; [right; split; [exact Hne|reflexivity]|lia].
      * change (after_tag (v0 :: v1) (B ", " ++ text_of_tags kvs)) with (B " " ++ text_of_tags kvs).
        apply IH; [right; split; [exact Hne|reflexivity]|lia].
Qed.
Lemma text_long kvs : (List.length kvs <= List.length (text_of_tags kvs))%nat.
Proof.
  induction kvs as [|kv kvs IH]; [cbn; lia|]. destruct (text_of_tags_cons kv kvs) as (rest & -> & Hr & _).
  rewrite app_length. unfold tag_text at 1. cbn [B list_ascii_of_string app List.length].
  destruct Hr as [[-> ->]|[_ ->]]; [cbn; lia|]. rewrite app_length. cbn. lia.
Qed.
Lemma line_tags_text kvs : Forall (fun kv => key_ok (fst kv) /\ value_ok (snd kv)) kvs -> line_tags (text_of_tags kvs) = kvs.
Proof.
  intros H. unfold line_tags. apply (read_tags kvs H _ []); [|apply text_long].
  destruct kvs; [left; auto|right; split; [discriminate|reflexivity]].
Qed.

(** ** maps *)
Lemma tag_get_set k v t x : tag_get x (tag_set k v t) = if eqb_bytes x k then Some v else tag_get x t.
Proof.
  induction t as [|[k' v'] t IH]; cbn; [reflexivity|]. destruct (eqb_bytes k k') eqn:E; cbn.
  - apply eqb_bytes_eq in E. subst. destruct (eqb_bytes x k'); reflexivity.
  - rewrite IH. destruct (eqb_bytes x k') eqn:E1; [|reflexivity]. apply eqb_bytes_eq in E1. subst.
    destruct (eqb_bytes k' k) eqn:E2; [|reflexivity]. apply eqb_bytes_eq in E2. subst. rewrite (proj2 (eqb_bytes_eq k k) eq_refl) in E. discriminate.
Qed.
Lemma tag_get_none k t : ~ In k (map fst t) -> tag_get k t = None.
Proof.
  induction t as [|[k' v'] t IH]; cbn; [reflexivity|]. intros H. destruct (eqb_bytes k k') eqn:E; [|auto].
  apply eqb_bytes_eq in E. subst. exfalso. auto.
Qed.
Lemma tag_get_in t : NoDup (map fst t) -> forall k v, tag_get k t = Some v <-> In (k, v) t.
Proof.
  induction t as [|[k' v'] t IH]; cbn; intros Hn k v; [split; [discriminate|intros []]|]. inversion Hn as [|? ? Hi Hn']; subst.
  destruct (eqb_bytes k k') eqn:E.
  - apply eqb_bytes_eq in E. subst. split; [intros H; injection H as ->; auto|]. intros [H|H]; [injection H as ->; reflexivity|].
    exfalso. apply Hi. apply in_map_iff. exists (k', v). auto.
  - rewrite (IH Hn'). split; [auto|]. intros [H|H]; [|exact H]. injection H as -> ->. rewrite (proj2 (eqb_bytes_eq _ _) eq_refl) in E. discriminate.
Qed.
Lemma set_all_get kvs : NoDup (map fst kvs) -> forall t k, tag_get k (set_all t kvs) = match tag_get k kvs with Some v => Some v | None => tag_get k t end.
Proof.
  induction kvs as [|[k1 v1] kvs IH]; intros Hn t k; [reflexivity|]. cbn [map fst] in Hn. inversion Hn as [|? ? Hi Hn']; subst.
  change (set_all t ((k1, v1) :: kvs)) with (set_all (tag_set k1 v1 t) kvs). rewrite IH by exact Hn'. cbn [tag_get].
  destruct (eqb_bytes k k1) eqn:E; rewrite tag_get_set, E; [|reflexivity]. apply eqb_bytes_eq in E. subst. rewrite tag_get_none by exact Hi. reflexivity.
Qed.
Definition val_of (t : tags) (k : bytes) : bytes := match tag_get k t with Some v => v | None => [] end.
Lemma tag_line_text t : tag_line t = text_of_tags (map (fun k => (k, val_of t k)) (tag_keys t)).
Proof. unfold tag_line, text_of_tags. rewrite map_map. reflexivity. Qed.
Lemma tag_line_tags t : tags_ok t -> exists kvs, line_tags (tag_line t) = kvs /\ NoDup (map fst kvs) /\ forall k, tag_get k kvs = tag_get k t.
Proof.
  intros [Hn Hf]. set (kvs := map (fun k => (k, val_of t k)) (tag_keys t)).
  assert (Hmap : map fst kvs = tag_keys t) by (unfold kvs; rewrite map_map; apply map_id).
  assert (Hp : Permutation (map fst t) (tag_keys t)) by apply sort_strings_perm.
  assert (Hnd : NoDup (map fst kvs)) by (rewrite Hmap; eapply Permutation_NoDup; eassumption).
  exists kvs. split; [|split; [exact Hnd|]].
  - rewrite tag_line_text. apply line_tags_text. apply Forall_forall. intros [k v] Hi. cbn.
    apply in_map_iff in Hi as (k' & E & Hi). injection E as -> <-. apply (Permutation_in _ (Permutation_sym Hp)) in Hi.
    apply in_map_iff in Hi as ([k1 v1] & E & Hi). cbn in E. subst k1. rewrite Forall_forall in Hf. specialize (Hf _ Hi). cbn in Hf.
    unfold val_of. rewrite (proj2 (tag_get_in t Hn k v1) Hi). exact Hf.
  - intros k. destruct (tag_get k t) as [v|] eqn:E.
    + apply (tag_get_in kvs Hnd). apply in_map_iff. exists k. unfold val_of. rewrite E. split; [reflexivity|].
      apply (Permutation_in _ Hp). apply in_map_iff. exists (k, v). split; [reflexivity|]. apply tag_get_in; assumption.
    + apply tag_get_none. rewrite Hmap. intros Hi. apply (Permutation_in _ (Permutation_sym Hp)) in Hi.
      apply in_map_iff in Hi as ([k1 v1] & E1 & Hi). cbn in E1. subst k1. apply (tag_get_in t Hn) in Hi. congruence.
Qed.
Lemma parse_one l : parse_tags [l] = set_all [] (line_tags l).
Proof. reflexivity. Qed.
Lemma tag_line_round_trip t : tags_ok t -> forall k, tag_get k (parse_tags [tag_line t]) = tag_get k t.
Proof.
  intros H k. destruct (tag_line_tags t H) as (kvs & E & Hn & Hg). rewrite parse_one, E, set_all_get by exact Hn. rewrite Hg.
  destruct (tag_get k t); reflexivity.
Qed.

(** ** adding tags to notes *)
Lemma set_all_gen kvs : forall t k, tag_get k (set_all t kvs) = match tag_get k (set_all [] kvs) with Some v => Some v | None => tag_get k t end.
Proof.
  induction kvs as [|[k1 v1] kvs IH]; intros t k; [reflexivity|].
  change (set_all t ((k1, v1) :: kvs)) with (set_all (tag_set k1 v1 t) kvs).
  change (set_all [] ((k1, v1) :: kvs)) with (set_all (tag_set k1 v1 []) kvs).
  rewrite (IH (tag_set k1 v1 t)), (IH (tag_set k1 v1 [])). destruct (tag_get k (set_all [] kvs)); [reflexivity|].
  rewrite !tag_get_set. destruct (eqb_bytes k k1); reflexivity.
Qed.
Lemma fold_gen lines : forall t k, tag_get k (fold_left (fun t l => set_all t (line_tags l)) lines t) =
  match tag_get k (parse_tags lines) with Some v => Some v | None => tag_get k t end.
Proof.
  unfold parse_tags. induction lines as [|l lines IH]; intros t k; [reflexivity|]. cbn [fold_left].
  rewrite (IH (set_all t (line_tags l))), (IH (set_all [] (line_tags l))).
  destruct (tag_get k (fold_left (fun t l => set_all t (line_tags l)) lines [])); [reflexivity|]. rewrite set_all_gen. destruct (tag_get k (set_all [] (line_tags l))); reflexivity.
Qed.
Lemma parse_cons l lines k : tag_get k (parse_tags (l :: lines)) = match tag_get k (parse_tags lines) with Some v => Some v | None => tag_get k (parse_tags [l]) end.
Proof. unfold parse_tags at 1. cbn [fold_left]. rewrite fold_gen. reflexivity. Qed.
Lemma parse_app lines : forall more k, tag_get k (parse_tags (lines ++ more)) = match tag_get k (parse_tags more) with Some v => Some v | None => tag_get k (parse_tags lines) end.
Proof.
  induction lines as [|l lines IH]; intros more k; cbn [app].
  - destruct (tag_get k (parse_tags more)); reflexivity.
  - rewrite parse_cons, IH, (parse_cons l lines). destruct (tag_get k (parse_tags more)); reflexivity.
Qed.
Lemma no_hash_search s : ~ In "#"%char s -> rsearch tagREX s = None.
Proof.
  induction s as [|c s IH]; intros H; [reflexivity|]. rewrite skip_char; [apply IH; intros Hi; apply H; right; exact Hi|].
  intros ->. apply H. left. reflexivity.
Qed.
Lemma no_hash_tags s : ~ In "#"%char s -> line_tags s = [].
Proof. intros H. unfold line_tags. destruct (List.length s); [reflexivity|]. cbn [find_all]. rewrite no_hash_search by exact H. reflexivity. Qed.
Lemma no_hash_pre pre s : ~ In "#"%char pre -> rsearch tagREX (pre ++ s) = rsearch tagREX s.
Proof.
  induction pre as [|c pre IH]; intros H; [reflexivity|]. cbn [app]. rewrite skip_char; [apply IH; intros Hi; apply H; right; exact Hi|].
  intros ->. apply H. left. reflexivity.
Qed.
Lemma add_tag_tags notes t k : tags_ok t ->
  (match notes with [] => True | n :: r => (List.length n + List.length (tag_line t) < line_max)%nat ->
     ~ In "#"%char n /\ forall k, tag_get k t <> None -> tag_get k (parse_tags r) = None end) ->
  tag_get k (parse_tags (add_tag_line notes (tag_line t))) = match tag_get k t with Some v => Some v | None => tag_get k (parse_tags notes) end.
Proof.
  intros Ht H. destruct notes as [|n r]; cbn [add_tag_line].
  - rewrite (tag_line_round_trip t Ht). destruct (tag_get k t); reflexivity.
  - destruct (_ <? _)%nat eqn:E.
    + destruct (H ltac:(lia)) as [Hn Hr]. rewrite (parse_cons (n ++ B " " ++ tag_line t) r), (parse_cons n r).
      rewrite !parse_one. assert (P : tag_get k (set_all [] (line_tags (n ++ B " " ++ tag_line t))) = tag_get k t).
      { rewrite <- (tag_line_round_trip t Ht), parse_one. f_equal. f_equal.
        set (kvs := map (fun k => (k, val_of t k)) (tag_keys t)).
        assert (Hok : Forall (fun kv => key_ok (fst kv) /\ value_ok (snd kv)) kvs).
        { destruct Ht as [Hnd Hf]. apply Forall_forall. intros [k1 v] Hi. cbn. apply in_map_iff in Hi as (k' & E1 & Hi). injection E1 as -> <-.
          apply (Permutation_in _ (Permutation_sym (sort_strings_perm _))) in Hi. apply in_map_iff in Hi as ([k2 v2] & E1 & Hi). cbn in E1. subst k2.
          rewrite Forall_forall in Hf. specialize (Hf _ Hi). cbn in Hf. unfold val_of. rewrite (proj2 (tag_get_in t Hnd k1 v2) Hi). exact Hf. }
        rewrite tag_line_text. fold kvs. rewrite (line_tags_text kvs Hok). rewrite app_assoc.
        destruct kvs as [|kv kvs'] eqn:Ek.
        - apply no_hash_tags. cbn. rewrite app_nil_r. intros Hi. apply in_app_or in Hi as [Hi|[Hi|[]]]; [auto|discriminate].
        - rewrite <- Ek in *. unfold line_tags. apply (read_tags kvs Hok).
          + right. split; [rewrite Ek; discriminate|]. apply forallb_forall. intros c Hc. destruct (eqc "#"%char c) eqn:F; [|reflexivity].
            apply Ascii.eqb_eq in F. subst c. apply in_app_or in Hc as [Hi|[Hi|[]]]; [contradiction|discriminate].
          + rewrite app_length. pose proof (text_long kvs). lia. }
      rewrite P, (no_hash_tags n Hn). cbn [set_all fold_left tag_get].
      destruct (tag_get k t) eqn:Et; [rewrite Hr by congruence; reflexivity|]. reflexivity.
    + rewrite parse_app. rewrite (tag_line_round_trip t Ht). reflexivity.
Qed.

(** ** value tags as a user writes them *)
Definition open_tail (r : bytes) : Prop := exists sp d r', r = sp ++ d :: r' /\ forallb is_space sp = true /\ is_space d = false /\ d <> ","%char.
Lemma value_read2 a c sp tail s' cs : a <> [] -> ~ In ","%char a -> is_space c = false -> c <> ","%char -> forallb is_space sp = true ->
  (tail = [] /\ s' = [] \/ tail = ","%char :: s' /\ open_tail s') ->
  rmatch rx_after (a ++ c :: sp ++ tail) cs (fun s0 c0 => Some (s0, c0)) = Some (s', ("value"%string, a ++ [c]) :: cs).
Proof.
  intros Ha Hn Hc Hcc Hsp Hf. destruct a as [|x a]; [congruence|]. apply nc_notin in Hn. cbn [forallb] in Hn. apply andb_prop in Hn as [Hx Hn].
  set (k := fun (s0 : bytes) (c0 : caps) => Some (s0, c0)).
  set (K := fun (s' : bytes) cs' => rmatch (RSeq (RStar s_) (RAlt (rchar ","%char) REnd)) s' cs' k).
  set (txt := (x :: a) ++ c :: sp ++ tail).
  set (K1 := fun (s' : bytes) cs' => K s' (("value"%string, firstn (List.length txt - List.length s') txt) :: cs')).
  assert (E : rmatch rx_after txt cs k = rmatch (RStar (RSet nc)) (a ++ c :: sp ++ tail) cs (fun s' cs' => rmatch S_ s' cs' K1)).
  { unfold rx_after. cbn [rseq rmatch]. unfold rplus. unfold txt at 1. cbn [app rmatch]. rewrite Hx. reflexivity. }
  rewrite E. clear E.
  assert (Ht : hd_not is_space tail) by (destruct Hf as [[-> _]|[-> _]]; [exact I|reflexivity]).
  apply star_back; auto.
  - unfold nc. destruct (eqc c ","%char) eqn:F; [apply Ascii.eqb_eq in F; congruence|reflexivity].
  - apply star_none. intros run rest E Hr.
    assert (rest = tail \/ exists y r, rest = y :: r /\ is_space y = true) as [->|(y & r & -> & Hy)].
    { clear -E Hr Hsp Hf. revert sp Hsp E. induction run as [|z run IH]; intros sp Hsp E.
      - cbn in E. subst rest. destruct sp as [|y sp]; [left; reflexivity|]. cbn in Hsp. apply andb_prop in Hsp as [Hy _]. right. exists y, (sp ++ tail). auto.
      - cbn in Hr. apply andb_prop in Hr as [Hz Hr]. destruct sp as [|y sp].
        + cbn in E. destruct Hf as [[-> _]|[-> _]]; [discriminate|]. injection E as <- _. discriminate.
        + injection E as <- E. cbn in Hsp. apply andb_prop in Hsp as [_ Hsp]. eapply IH; eassumption. }
    + destruct Hf as [[-> _]|[-> (sp1 & d & r' & -> & Hs1 & Hd & Hdc)]]; [reflexivity|].
      change (K1 (sp1 ++ d :: r') cs = None). unfold K1, K. generalize (firstn (List.length txt - List.length (sp1 ++ d :: r')) txt). intros u.
      change (rmatch (RStar (RSet is_space)) (sp1 ++ d :: r') (("value"%string, u) :: cs) (fun s'' cs'' => rmatch (RAlt (rchar ","%char) REnd) s'' cs'' k) = None).
      apply star_none. clear E Hr. intros run' rest E1 Hr1.
      assert (exists y r, rest = y :: r /\ y <> ","%char) as (y & r & -> & Hy).
      { clear -E1 Hr1 Hs1 Hd Hdc. revert sp1 Hs1 E1. induction run' as [|z run' IH]; intros sp1 Hs1 E1.
        - cbn in E1. subst rest. destruct sp1 as [|y sp1]; [exists d, r'; auto|]. exists y, (sp1 ++ d :: r'). split; [reflexivity|].
          intros ->. cbn in Hs1. discriminate.
        - cbn in Hr1. apply andb_prop in Hr1 as [Hz Hr1]. destruct sp1 as [|y sp1].
          + cbn in E1. injection E1 as <- _. congruence.
          + injection E1 as <- E1. cbn in Hs1. apply andb_prop in Hs1 as [_ Hs1]. eapply IH; eassumption. }
      unfold rchar. cbn [rmatch]. destruct (eqc ","%char y) eqn:F; [apply Ascii.eqb_eq in F; congruence|reflexivity].
    + unfold S_. cbn [rmatch]. rewrite Hy. reflexivity.
  - unfold S_. cbn [rmatch]. rewrite Hc. cbn [negb]. unfold K1. replace (firstn _ txt) with ((x :: a) ++ [c]).
    2:{ symmetry. apply firstn_pre. unfold txt. rewrite <- app_assoc. reflexivity. }
    unfold K. change (rmatch (RStar s_) (sp ++ tail) (("value"%string, (x :: a) ++ [c]) :: cs) (fun s' cs' => rmatch (RAlt (rchar ","%char) REnd) s' cs' k) = Some (s', ("value"%string, (x :: a) ++ [c]) :: cs)).
    apply star_run; auto. destruct Hf as [[-> ->]|[-> _]]; reflexivity.
Qed.
Lemma find_all_fuel s : forall f f', (List.length s <= f)%nat -> (List.length s <= f')%nat -> find_all f tagREX s = find_all f' tagREX s.
Proof.
  assert (Hlen : forall s rest cs, rsearch tagREX s = Some (rest, cs) -> (List.length rest < List.length s)%nat).
  { clear. induction s as [|c s IH]; cbn [rsearch]; intros rest cs H.
    - destruct (rprefix tagREX []) as [y|] eqn:E; [|discriminate]. injection H as ->. apply tag_parsed in E. tauto.
    - destruct (rprefix tagREX (c :: s)) as [y|] eqn:E; [injection H as ->; apply tag_parsed in E; tauto|]. apply IH in H. cbn. lia. }
  intros f. revert s. induction f as [|f IH]; intros s f' H1 H2.
  - destruct s; [|cbn in H1; lia]. destruct f'; reflexivity.
  - destruct f' as [|f']; [destruct s; [reflexivity|cbn in H2; lia]|]. cbn [find_all].
    destruct (rsearch tagREX s) as [[rest cs]|] eqn:E; [|reflexivity]. f_equal. apply Hlen in E. apply IH; lia.
Qed.
Lemma value_tag pre k sp1 a c sp2 tail s' : ~ In "#"%char pre -> key_ok k -> forallb is_space sp1 = true ->
  a <> [] -> hd_not is_space a -> ~ In ","%char a -> is_space c = false -> c <> ","%char -> forallb is_space sp2 = true ->
  (tail = [] /\ s' = [] \/ tail = ","%char :: s' /\ open_tail s') ->
  line_tags (pre ++ B "#" ++ k ++ B ":" ++ sp1 ++ a ++ c :: sp2 ++ tail) = (k, a ++ [c]) :: line_tags s'.
Proof.
  intros Hpre [Hk1 Hk2] Hs1 Ha Hah Hac Hc Hcc Hs2 Ht.
  set (txt := B "#" ++ k ++ B ":" ++ sp1 ++ a ++ c :: sp2 ++ tail).
  assert (E : rprefix tagREX txt = Some (s', [("value"%string, a ++ [c]); ("key"%string, k)])).
  { unfold rprefix, txt.
    change (rmatch (RGrp "key" (rplus (RSet is_acc))) (k ++ ":"%char :: sp1 ++ a ++ c :: sp2 ++ tail) [] (fun s'' cs'' => rmatch (ROpt rx_tag_value) s'' cs'' (fun s0 c0 => Some (s0, c0))) = Some (s', [("value"%string, a ++ [c]); ("key"%string, k)])).
    assert (T : takes (RGrp "key" (rplus (RSet is_acc))) k [("key"%string, k)] (hd_not is_acc)).
    { apply takes_grp with (c := []), takes_plus; auto. }
    apply T; [reflexivity|]. cbn [app].
    assert (V : rmatch rx_tag_value (":"%char :: sp1 ++ a ++ c :: sp2 ++ tail) [("key"%string, k)] (fun s0 c0 => Some (s0, c0)) = Some (s', [("value"%string, a ++ [c]); ("key"%string, k)])).
    { change (rmatch (RStar s_) (sp1 ++ a ++ c :: sp2 ++ tail) [("key"%string, k)] (fun s'' cs'' => rmatch rx_after s'' cs'' (fun s0 c0 => Some (s0, c0))) = Some (s', [("value"%string, a ++ [c]); ("key"%string, k)])).
      apply star_run; [exact Hs1|destruct a; [congruence|exact Hah]|]. apply value_read2; auto. }
    cbn [rmatch]. rewrite V. reflexivity. }
  unfold line_tags. 
  assert (L : exists f, List.length (pre ++ txt) = S f /\ (List.length s' <= f)%nat).
  { apply tag_parsed in E as (_ & _ & L). rewrite app_length. exists (List.length pre + List.length txt - 1)%nat. lia. }
  destruct L as (f & -> & L). cbn [find_all]. rewrite no_hash_pre by exact Hpre. rewrite (rsearch_here _ _ _ E). cbn [map]. f_equal.
  rewrite (find_all_fuel s' f (List.length s')) by lia. reflexivity.
Qed.
