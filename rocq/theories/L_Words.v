(** Lemmas: trimWS. *)
From Verif Require Import Base M_Amount M_Parser M_Writer M_Names M_Ledger M_Commands S_Commands L_Dec.

Lemma rev_nonempty {A} (x : A) l : rev (x :: l) <> [].
Proof. cbn. intros H. symmetry in H. apply app_cons_not_nil in H. destruct H. Qed.
Lemma words_loop_white s : white s -> forall r w, words_loop (s ++ r) w = match w with [] => words_loop r [] | _ => match s with [] => words_loop r w | _ => rev w :: words_loop r [] end end.
Proof.
  induction 1 as [|c s Hc _ IH]; intros r w; cbn [app words_loop].
  - destruct w; reflexivity.
  - rewrite Hc. destruct w as [|x w]; rewrite IH; reflexivity.
Qed.
Lemma words_loop_word w : Forall (fun c => is_ascii_space c = false) w -> forall r v, words_loop (w ++ r) v = words_loop r (rev w ++ v).
Proof.
  induction 1 as [|c w Hc _ IH]; intros r v; [reflexivity|]. cbn [app words_loop rev]. rewrite Hc, IH, <- app_assoc. reflexivity.
Qed.
Lemma words_spaced s ws : spaced s ws -> words s = ws.
Proof.
  unfold words. induction 1 as [s H|s w s' H [N W] H'|s w b r w2 ws H [N W] Hb _ IH].
  - rewrite <- (app_nil_r s), (words_loop_white s H). reflexivity.
  - rewrite (words_loop_white s H), (words_loop_word w W), app_nil_r. destruct w as [|c w]; [tauto|].
    rewrite <- (app_nil_r s'), (words_loop_white s' H'). pose proof (rev_nonempty c w). destruct (rev (c :: w)) eqn:E; [tauto|].
    rewrite <- E, rev_involutive. destruct s'; [|reflexivity]. cbn [words_loop]. destruct (rev (c :: w)) eqn:E2; [congruence|]. rewrite <- E2, rev_involutive. reflexivity.
  - rewrite (words_loop_white s H), (words_loop_word w W), app_nil_r. cbn [words_loop]. rewrite Hb. destruct w as [|c w]; [tauto|].
    pose proof (rev_nonempty c w). destruct (rev (c :: w)) eqn:E; [tauto|]. rewrite <- E, rev_involutive, IH. reflexivity.
Qed.
Lemma spaced_more b s ws : is_ascii_space b = true -> spaced s ws -> spaced (b :: s) ws.
Proof.
  intros Hb H. destruct H as [s H|s w s' H W H'|s w b' r w2 ws H W Hb' K].
  - apply spaced_nil. constructor; assumption.
  - apply (spaced_last (b :: s)); [constructor|..]; assumption.
  - apply (spaced_cons (b :: s)); [constructor|..]; assumption.
Qed.
Lemma loop_spaced : forall s w, Forall (fun c => is_ascii_space c = false) w -> exists ws, spaced (rev w ++ s) ws.
Proof.
  induction s as [|c s IH]; intros w W.
  - destruct w as [|x w]; [exists []; apply spaced_nil; constructor|]. exists [rev (x :: w)]. apply (spaced_last [] (rev (x :: w)) []); [constructor| |constructor].
    split; [apply rev_nonempty|]. apply Forall_rev, W.
  - destruct (is_ascii_space c) eqn:E.
    + destruct (IH [] ltac:(constructor)) as (ws & H). cbn [rev app] in H. destruct w as [|x w].
      * exists ws. cbn [rev app]. apply spaced_more; assumption.
      * assert (Wt : is_word_text (rev (x :: w))) by (split; [apply rev_nonempty|apply Forall_rev, W]).
        destruct ws as [|w2 ws].
        -- inversion H; subst. exists [rev (x :: w)]. apply (spaced_last [] (rev (x :: w)) (c :: s)); [constructor|exact Wt|constructor; assumption].
        -- exists (rev (x :: w) :: w2 :: ws). apply (spaced_cons [] (rev (x :: w)) c s); [constructor|exact Wt|exact E|exact H].
    + destruct (IH (c :: w) ltac:(constructor; assumption)) as (ws & H). exists ws. cbn [rev] in H. rewrite <- app_assoc in H. exact H.
Qed.
Lemma spaced_exists s : exists ws, spaced s ws.
Proof. destruct (loop_spaced s [] ltac:(constructor)) as (ws & H). exists ws. exact H. Qed.
Lemma spaced_words s : spaced s (words s).
Proof. destruct (spaced_exists s) as (ws & H). rewrite (words_spaced _ _ H). exact H. Qed.
Lemma spaced_texts s ws : spaced s ws -> Forall is_word_text ws.
Proof. induction 1; auto. Qed.
Lemma spaced_join ws : Forall is_word_text ws -> spaced (join (B " ") ws) ws.
Proof.
  induction 1 as [|w ws W H IH]; [apply spaced_nil; constructor|]. destruct ws as [|w2 ws].
  - cbn [join]. assert (E : w = [] ++ w ++ []) by (rewrite app_nil_r; reflexivity). rewrite E at 1. apply (spaced_last [] w []); [constructor|exact W|constructor].
  - change (join (B " ") (w :: w2 :: ws)) with (w ++ B " " ++ join (B " ") (w2 :: ws)).
    apply (spaced_cons [] w " "%char); [constructor|exact W|reflexivity|exact IH].
Qed.
Lemma trim_ws_idem s : trim_ws (trim_ws s) = trim_ws s.
Proof. unfold trim_ws. rewrite (words_spaced _ _ (spaced_join _ (spaced_texts _ _ (spaced_words s)))). reflexivity. Qed.
