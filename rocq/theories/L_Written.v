(** Hand-written transactions are read. *)
From Verif Require Import Base M_Amount M_Regex M_Date M_Parser S_Decimal S_Date S_DateText S_Ledger S_Written
  L_Dec L_Amount L_Regex L_Date L_DateText L_Parser M_Writer L_RoundTrip.

Lemma blank_char c : (c = " "%char \/ c = chr 9) <-> is_blank_char c = true.
Proof.
  split; [intros [-> | ->]; reflexivity|]. destruct c as [b0 b1 b2 b3 b4 b5 b6 b7]; destruct b0, b1, b2, b3, b4, b5, b6, b7; vm_compute; intros H; try discriminate; auto.
Qed.
Lemma blanks_b s : blanks s -> forallb is_blank_char s = true.
Proof. intros H. apply forallb_forall. intros c Hc. unfold blanks in H. rewrite Forall_forall in H. apply blank_char, H, Hc. Qed.
Lemma blanks_space s : blanks s -> forallb is_space s = true.
Proof. intros H. apply blanks_b in H. rewrite forallb_forall in *. intros c Hc. apply blank_is_space, H, Hc. Qed.
Lemma blank_lchar : forall c, is_blank_char c = true -> lchar c = true. Proof. all_chars. Qed.
Lemma blanks_line s : blanks s -> line_text s.
Proof. intros H. eapply line_of; [apply blank_lchar|]. apply blanks_b, H. Qed.
Lemma gap_head s r : gap s -> hd_is is_space (s ++ r).
Proof. intros [N H]. apply blanks_space in H. destruct s as [|c s]; [congruence|]. cbn in H |- *. apply andb_true_iff in H. tauto. Qed.

(** ** notes *)
Definition unspace (y : bytes) : bytes := match y with c :: r => if eqc " "%char c then r else y | [] => [] end.
Lemma takes_semi_any nm y : line_text y -> takes (semi_note nm) (B ";" ++ y) [(nm, unspace y)] at_end.
Proof.
  intros H. unfold semi_note. cbn [rseq].
  assert (C : exists s1, y = s1 ++ unspace y /\ takes (ROpt (rchar " "%char)) s1 [] (fun s => s = unspace y)).
  { unfold unspace. destruct y as [|c r].
    - exists []. split; [reflexivity|]. apply takes_opt_none. intros rest ->. apply fails_set. exact I.
    - destruct (eqc " "%char c) eqn:E.
      + exists [c]. apply eqc_eq in E. subst c. split; [reflexivity|]. apply takes_opt_some, takes_char.
      + exists []. split; [reflexivity|]. apply takes_opt_none. intros rest ->. apply fails_set. exact E. }
  destruct C as (s1 & Ey & T).
  eapply takes_eq; [eapply takes_seq with (t1 := [";"%char]) (c1 := []) (P1 := fun _ => True);
    [apply takes_char|eapply takes_seq with (t1 := s1) (t2 := unspace y) (c1 := []) (P1 := fun s => s = unspace y);
      [exact T|apply takes_grp, takes_any|]|]| |].
  - rewrite Ey in H. apply Forall_app in H. apply H.
  - intros rest HR. exact HR.
  - intros rest HR. unfold at_end in HR. subst rest. apply app_nil_r.
  - intros; exact I.
  - rewrite <- Ey. reflexivity.
  - reflexivity.
Qed.
Lemma trim_blanks b n : blanks b -> trim_left (b ++ n) = trim_left n.
Proof. intros H. apply blanks_b in H. induction b as [|c b IH]; [reflexivity|]. cbn in H |- *. apply andb_true_iff in H as [H1 H2]. rewrite H1. auto. Qed.
Lemma trim_unspace y : trim_left (unspace y) = trim_left y.
Proof. destruct y as [|c r]; [reflexivity|]. cbn. destruct (eqc " "%char c) eqn:E; [|reflexivity]. apply eqc_eq in E. subst c. reflexivity. Qed.
(** what a tail consists of *)
Definition listed (o : option bytes) : list bytes :=
  match trim_left (match o with Some x => x | None => [] end) with [] => [] | n => [n] end.
(** characters a tail starts with *)
Definition tailc (c : ascii) : bool := is_space c || eqc ";"%char c.
Definition tail_head (s : bytes) : Prop := match s with [] => True | c :: _ => tailc c = true end.
Lemma tail_hd_not s f : tail_head s -> (forall c, tailc c = true -> f c = false) -> hd_not f s.
Proof. destruct s as [|c s]; [intros; exact I|]. cbn. auto. Qed.
Lemma note_listed b n : blanks b -> note_ok n -> listed (Some (unspace (b ++ n))) = [n].
Proof. intros Hb Hn. unfold listed. rewrite trim_unspace, (trim_blanks _ _ Hb), (trim_left_note _ Hn). destruct Hn as (N & _). destruct n; [congruence|reflexivity]. Qed.
Lemma empty_listed b : blanks b -> listed (Some (unspace b)) = [].
Proof. intros Hb. unfold listed. rewrite trim_unspace, <- (app_nil_r b), (trim_blanks _ _ Hb). reflexivity. Qed.
Lemma after_run sp y run rest : forallb is_space sp = true -> (y = [] \/ exists z, y = ";"%char :: z) ->
  sp ++ y = run ++ rest -> forallb is_space run = true -> tail_head rest.
Proof.
  revert sp. induction run as [|c run IH]; intros sp Hs Hy E Hr.
  - cbn [app] in E. subst rest. destruct sp as [|x sp].
    + destruct Hy as [->|(z & ->)]; [exact I|reflexivity].
    + cbn in Hs |- *. apply andb_true_iff in Hs as [Hx _]. unfold tailc. rewrite Hx. reflexivity.
  - cbn in Hr. apply andb_true_iff in Hr as [Hc Hr]. destruct sp as [|x sp].
    + cbn [app] in E. destruct Hy as [->|(z & ->)]; [discriminate|]. injection E as <- _. discriminate.
    + cbn [app] in E. injection E as <- E. cbn in Hs. apply andb_true_iff in Hs as [_ Hs]. exact (IH sp Hs Hy E Hr).
Qed.
Lemma tail_split ns t : tail_is ns t -> exists tk lf o, t = tk ++ lf /\
  takes (ROpt rx_short) tk (note_caps o) (fun s => s = lf) /\ listed o = ns /\
  (forall run rest, t = run ++ rest -> forallb is_space run = true -> tail_head rest).
Proof.
  assert (N : forall sp y, blanks sp -> line_text y -> exists tk lf o, sp ++ B ";" ++ y = tk ++ lf /\
    takes (ROpt rx_short) tk (note_caps o) (fun s => s = lf) /\ o = Some (unspace y) /\
    (forall run rest, sp ++ B ";" ++ y = run ++ rest -> forallb is_space run = true -> tail_head rest)).
  { intros sp y Hs Hy. exists (sp ++ B ";" ++ y), [], (Some (unspace y)). split; [symmetry; apply app_nil_r|]. split; [|split; [reflexivity|]].
    - apply takes_opt_some. unfold rx_short.
      eapply takes_eq; [eapply takes_seq with (t1 := sp) (c1 := []) (P1 := hd_not is_space); [apply takes_star; [apply blanks_space, Hs|auto]|apply takes_semi_any, Hy|]| |].
      + intros; reflexivity.
      + reflexivity.
      + reflexivity.
    - intros run rest E Hr. eapply after_run; [apply blanks_space, Hs| |exact E|exact Hr]. right. eexists. reflexivity. }
  intros [sp Hs|sp b n Hs Hb Hn|sp b Hs Hb].
  - exists [], sp, None. split; [reflexivity|]. split; [|split; [reflexivity|]].
    + apply takes_opt_none. intros rest ->. apply fails_star_seq. intros run rest E Hr. apply fails_seq_l, fails_set.
      assert (Hh : tail_head rest) by (eapply (after_run sp []); [apply blanks_space, Hs|left; reflexivity|rewrite app_nil_r; exact E|exact Hr]).
      assert (Hsp := blanks_space _ Hs). rewrite E, forallb_app in Hsp. apply andb_true_iff in Hsp as [_ Hsp].
      destruct rest as [|c rest]; [exact I|]. cbn in Hsp |- *. apply andb_true_iff in Hsp as [Hc _]. apply space_not_semi, Hc.
    + intros run rest E Hr. eapply (after_run sp []); [apply blanks_space, Hs|left; reflexivity|rewrite app_nil_r; exact E|exact Hr].
  - destruct (N sp (b ++ n) Hs) as (tk & lf & o & E1 & E2 & -> & E3).
    { apply line_app; [apply blanks_line, Hb|]. apply line_note, Hn. }
    exists tk, lf, (Some (unspace (b ++ n))). split; [exact E1|]. split; [exact E2|]. split; [apply note_listed; assumption|exact E3].
  - destruct (N sp b Hs (blanks_line _ Hb)) as (tk & lf & o & E1 & E2 & -> & E3).
    exists tk, lf, (Some (unspace b)). split; [exact E1|]. split; [exact E2|]. split; [apply empty_listed; assumption|exact E3].
Qed.
Lemma tailc_not_word : forall c, tailc c = true -> is_word c = false. Proof. all_chars. Qed.
Lemma tailc_not_eq : forall c, tailc c = true -> eqc "="%char c = false. Proof. all_chars. Qed.
Lemma tailc_not_digit : forall c, tailc c = true -> is_digit c = false. Proof. all_chars. Qed.
Lemma tailc_not_minus : forall c, tailc c = true -> eqc "-"%char c = false. Proof. all_chars. Qed.
Lemma tailc_not_name : forall c, tailc c = true -> is_acc c || eqc ":"%char c = false. Proof. all_chars. Qed.

(** ** amounts *)
Definition rx_amt1 : rx := rseq [rplus s_; rx_amount_n "amount1" "decimals1" "commodity1"; ROpt rx_bal].
Lemma amount_read e q t : amount_is e q t -> exists l sp i c, t = lit_text l ++ sp ++ i /\ lit_ok l /\ gap sp /\ id_ok i /\
  e_find e i = Some c /\ parse_amount (lit_text l) c = Ok q.
Proof.
  intros [l sp i c Hl Hsp Hi Hf F1 F2 F3]. exists l, sp, i, c. repeat split; auto; try apply Hl; try apply Hsp.
  destruct (proj2 (parse_total l c Hl) F2 F3 F1) as (a & E). destruct (parse_sound l c a Hl E) as [E1 E2]. rewrite E. f_equal.
  destruct a as [ai ac]. cbn [a_int a_com] in E1, E2. subst. reflexivity.
Qed.
Lemma fails_amount s d c n : tail_head s -> fails (rx_amount_n d c n) s.
Proof.
  intros H. unfold rx_amount_n. cbn [rseq]. apply fails_seq_l, fails_grp. apply fails_opt_seq.
  - apply fails_set, (tail_hd_not _ _ H), tailc_not_minus.
  - apply fails_seq_l. unfold rplus. apply fails_seq_l, fails_set, (tail_hd_not _ _ H), tailc_not_digit.
Qed.
Lemma amount_start l : lit_ok l -> forall r, hd_not is_space (lit_text l ++ r).
Proof.
  intros Hl r. eapply hd_is_not; [|apply hd_is_app, lit_head, Hl].
  intros c Hc. apply orb_true_iff in Hc as [Hc|Hc]; [apply digit_not_space, Hc|]. apply eqc_eq in Hc. subst c. reflexivity.
Qed.
Lemma takes_gap sp (P : bytes -> Prop) : gap sp -> (forall rest, P rest -> hd_not is_space rest) -> takes (rplus s_) sp [] P.
Proof. intros [N H] HP. apply takes_spaces; [exact N|apply blanks_space, H|exact HP]. Qed.
Definition lcaps (l : literal) (i : bytes) (a d c : string) : caps := (c, i) :: (a, lit_text l) :: lit_caps d l.
Lemma takes_bal_w sp3 sp4 l sp i t : gap sp3 -> gap sp4 -> lit_ok l -> gap sp -> id_ok i -> tail_head t ->
  takes (ROpt rx_bal) (sp3 ++ B "=" ++ sp4 ++ lit_text l ++ sp ++ i) (lcaps l i "amount2" "decimals2" "commodity2") (fun s => s = t).
Proof.
  intros H3 H4 Hl Hsp Hi Ht. apply takes_opt_some. unfold rx_bal. cbn [rseq].
  eapply takes_eq; [eapply takes_seq with (t1 := sp3) (c1 := []) (P1 := hd_not is_space);
    [apply takes_gap; [exact H3|auto]|eapply takes_seq with (t1 := ["="%char]) (c1 := []) (P1 := fun _ => True);
       [apply takes_char|eapply takes_seq with (t1 := sp4) (c1 := []) (P1 := hd_not is_space);
         [apply takes_gap; [exact H4|auto]|
          eapply takes_weaken; [|apply (takes_amount _ _ _ l sp i); [exact Hl|apply Hsp|apply blanks_space, Hsp|exact Hi]]|]|]|]| |].
  - intros s ->. apply (tail_hd_not _ _ Ht), tailc_not_word.
  - intros rest _. rewrite <- app_assoc. apply amount_start, Hl.
  - intros; exact I.
  - intros; reflexivity.
  - reflexivity.
  - rewrite !app_nil_r. reflexivity.
Qed.
Lemma takes_amt_w sp2 l sp i X cs t : gap sp2 -> lit_ok l -> gap sp -> id_ok i ->
  takes (ROpt rx_bal) X cs (fun s => s = t) -> hd_not is_word (X ++ t) ->
  takes (ROpt rx_amt1) (sp2 ++ lit_text l ++ sp ++ i ++ X) (cs ++ lcaps l i "amount1" "decimals1" "commodity1") (fun s => s = t).
Proof.
  intros H2 Hl Hsp Hi TX HW. apply takes_opt_some. unfold rx_amt1. cbn [rseq].
  eapply takes_eq; [eapply takes_seq with (t1 := sp2) (c1 := []) (P1 := hd_not is_space);
    [apply takes_gap; [exact H2|auto]|
     eapply takes_seq with (P1 := hd_not is_word); [apply (takes_amount _ _ _ l sp i); [exact Hl|apply Hsp|apply blanks_space, Hsp|exact Hi]|exact TX|]|]| |].
  - intros rest ->. exact HW.
  - intros rest _. rewrite <- !app_assoc. apply amount_start, Hl.
  - rewrite <- !app_assoc. reflexivity.
  - rewrite app_nil_r. reflexivity.
Qed.
Lemma no_bal t : (forall run rest, t = run ++ rest -> forallb is_space run = true -> tail_head rest) -> takes (ROpt rx_bal) [] [] (fun s => s = t).
Proof.
  intros H. apply takes_opt_none. intros rest ->. unfold rx_bal. cbn [rseq]. apply fails_plus_seq. intros run rest E _ Hr.
  apply fails_seq_l, fails_set, (tail_hd_not _ _ (H _ _ E Hr)), tailc_not_eq.
Qed.
Lemma no_amt t : (forall run rest, t = run ++ rest -> forallb is_space run = true -> tail_head rest) -> takes (ROpt rx_amt1) [] [] (fun s => s = t).
Proof.
  intros H. apply takes_opt_none. intros rest ->. unfold rx_amt1. cbn [rseq]. apply fails_plus_seq. intros run rest E _ Hr.
  apply fails_seq_l, fails_amount, (H _ _ E Hr).
Qed.

(** ** posting lines *)
Lemma search_line sp a X cs tk lf tcs : gap sp -> name_ok a -> takes (ROpt rx_amt1) X cs (fun s => s = tk ++ lf) ->
  takes (ROpt rx_short) tk tcs (fun s => s = lf) -> name_end (X ++ tk ++ lf) ->
  rsearch postingREX (sp ++ a ++ X ++ tk ++ lf) = Some (lf, tcs ++ cs ++ [("account"%string, a)]).
Proof.
  intros Hs Ha TX TT HN. rewrite postingREX_eq.
  replace (sp ++ a ++ X ++ tk ++ lf) with ((sp ++ a ++ X ++ tk) ++ lf) by (rewrite <- !app_assoc; reflexivity).
  apply takes_search with (P := fun s => s = lf); [|reflexivity]. apply takes_alt_l.
  eapply takes_eq; [eapply takes_seq with (t1 := sp) (c1 := []) (P1 := hd_is is_alpha);
    [apply takes_gap; [exact Hs|]|
     eapply takes_seq with (P1 := name_end); [apply takes_account, Ha|
      eapply takes_seq with (P1 := fun s => s = tk ++ lf); [exact TX|exact TT|]|]|]| |].
  - intros rest HR. eapply hd_is_not; [|exact HR]. apply alpha_not_space.
  - intros rest ->. reflexivity.
  - intros rest ->. rewrite <- app_assoc. exact HN.
  - intros rest HR. destruct (name_ok_head _ Ha) as (c & r & -> & Hc). rewrite <- app_assoc. cbn. exact Hc.
  - reflexivity.
  - rewrite app_nil_r. rewrite <- app_assoc. reflexivity.
Qed.
Lemma gap_name_end sp r : gap sp -> name_end (sp ++ r).
Proof. intros H. eapply hd_is_not; [|apply (gap_head sp r H)]. intros c Hc. rewrite space_not_acc, space_not_colon by exact Hc. reflexivity. Qed.
Lemma cap_app_none n (a b : caps) : Forall (fun p => n <> fst p) a -> cap n (a ++ b) = cap n b.
Proof. induction 1 as [|[x y] l Hx _ IH]; [reflexivity|]. cbn [app cap]. cbn in Hx. destruct (String.eqb_spec n x); [contradiction|exact IH]. Qed.
Lemma short_listed o rest : cap "shortNote" rest = [] -> short_note (note_caps o ++ rest) = listed o.
Proof. intros H. unfold short_note, listed. destruct o; cbn [note_caps app]; [reflexivity|]. rewrite H. reflexivity. Qed.
Ltac caps_tac := repeat match goal with |- context [note_caps ?o] => is_var o; destruct o end; unfold lcaps, lit_caps; cbn [note_caps];
  repeat match goal with |- context [l_frac ?x] => destruct (l_frac x) end; reflexivity.

Lemma tx_loop_line e p l : posting_line e p l -> forall rest nr tn ps pend tn' ps', flush tn ps pend = Ok (tn', ps') ->
  tx_loop e (l :: rest) nr tn ps pend = tx_loop e rest (S nr) tn' (ps' ++ [p]) [].
Proof.
  intros H rest nr tn ps pend tn' ps' HF. unfold flush in HF. cbn [tx_loop].
  destruct H as [sp a ns t Hs Ha HT|sp a sp2 q qt ns t Hs Ha H2 HQ HT|sp a sp2 q qt sp3 sp4 b bt ns t Hs Ha H2 HQ H3 H4 HB HT];
    destruct (tail_split _ _ HT) as (tk & lf & o & -> & TT & EL & HH).
  - assert (E : rsearch postingREX (sp ++ a ++ tk ++ lf) = Some (lf, note_caps o ++ [] ++ [("account"%string, a)])).
    { apply (search_line sp a [] [] tk lf); auto; [apply no_amt, HH|]. cbn [app]. apply (tail_hd_not (tk ++ lf)); [|apply tailc_not_name].
      apply (HH [] (tk ++ lf)); reflexivity. }
    rewrite E. cbn [app].
    rewrite (short_listed o), EL by reflexivity.
    replace (cap "note" (note_caps o ++ [("account"%string, a)])) with (@nil ascii) by (symmetry; caps_tac).
    replace (cap "amount1" (note_caps o ++ [("account"%string, a)])) with (@nil ascii) by (symmetry; caps_tac).
    replace (cap "amount2" (note_caps o ++ [("account"%string, a)])) with (@nil ascii) by (symmetry; caps_tac).
    replace (cap "account" (note_caps o ++ [("account"%string, a)])) with a by (symmetry; caps_tac).
    cbn [bind]. rewrite HF. reflexivity.
  - destruct (amount_read _ _ _ HQ) as (l & sp' & i & c & -> & Hl & Hsp' & Hi & Hf & EP).
    set (cs := [] ++ lcaps l i "amount1" "decimals1" "commodity1").
    assert (E : rsearch postingREX (sp ++ a ++ sp2 ++ (lit_text l ++ sp' ++ i) ++ tk ++ lf) = Some (lf, note_caps o ++ cs ++ [("account"%string, a)])).
    { replace (sp2 ++ (lit_text l ++ sp' ++ i) ++ tk ++ lf) with ((sp2 ++ lit_text l ++ sp' ++ i ++ []) ++ tk ++ lf) by (rewrite <- !app_assoc; reflexivity).
      apply search_line; auto; [|rewrite <- app_assoc; apply gap_name_end, H2].
      apply takes_amt_w; auto; [apply no_bal, HH|]. cbn [app]. apply (tail_hd_not (tk ++ lf)); [|apply tailc_not_word].
      apply (HH [] (tk ++ lf)); reflexivity. }
    rewrite E. rewrite (short_listed o), EL by (unfold cs; caps_tac).
    replace (cap "note" (note_caps o ++ cs ++ [("account"%string, a)])) with (@nil ascii) by (symmetry; unfold cs; caps_tac).
    replace (cap "amount1" (note_caps o ++ cs ++ [("account"%string, a)])) with (lit_text l) by (symmetry; unfold cs; caps_tac).
    replace (cap "commodity1" (note_caps o ++ cs ++ [("account"%string, a)])) with i by (symmetry; unfold cs; caps_tac).
    replace (cap "amount2" (note_caps o ++ cs ++ [("account"%string, a)])) with (@nil ascii) by (symmetry; unfold cs; caps_tac).
    replace (cap "account" (note_caps o ++ cs ++ [("account"%string, a)])) with a by (symmetry; unfold cs; caps_tac).
    destruct (lit_nonempty l Hl) as (x & y & EX). rewrite EX in EP |- *. unfold must_find. rewrite Hf. cbn [bind]. rewrite EP. cbn [bind]. rewrite HF. reflexivity.
  - destruct (amount_read _ _ _ HQ) as (l & sp' & i & c & -> & Hl & Hsp' & Hi & Hf & EP).
    destruct (amount_read _ _ _ HB) as (l2 & sp5 & i2 & c2 & -> & Hl2 & Hsp5 & Hi2 & Hf2 & EP2).
    set (cs := lcaps l2 i2 "amount2" "decimals2" "commodity2" ++ lcaps l i "amount1" "decimals1" "commodity1").
    assert (E : rsearch postingREX (sp ++ a ++ sp2 ++ (lit_text l ++ sp' ++ i) ++ sp3 ++ B "=" ++ sp4 ++ (lit_text l2 ++ sp5 ++ i2) ++ tk ++ lf)
       = Some (lf, note_caps o ++ cs ++ [("account"%string, a)])).
    { replace (sp2 ++ (lit_text l ++ sp' ++ i) ++ sp3 ++ B "=" ++ sp4 ++ (lit_text l2 ++ sp5 ++ i2) ++ tk ++ lf)
        with ((sp2 ++ lit_text l ++ sp' ++ i ++ (sp3 ++ B "=" ++ sp4 ++ lit_text l2 ++ sp5 ++ i2)) ++ tk ++ lf) by (rewrite <- !app_assoc; reflexivity).
      apply search_line; auto; [|rewrite <- app_assoc; apply gap_name_end, H2].
      apply takes_amt_w; auto.
      - apply takes_bal_w; auto. apply (HH [] (tk ++ lf)); reflexivity.
      - rewrite <- app_assoc. eapply hd_is_not; [|apply gap_head, H3]. apply space_not_word. }
    rewrite E. rewrite (short_listed o), EL by (unfold cs; caps_tac).
    replace (cap "note" (note_caps o ++ cs ++ [("account"%string, a)])) with (@nil ascii) by (symmetry; unfold cs; caps_tac).
    replace (cap "amount1" (note_caps o ++ cs ++ [("account"%string, a)])) with (lit_text l) by (symmetry; unfold cs; caps_tac).
    replace (cap "commodity1" (note_caps o ++ cs ++ [("account"%string, a)])) with i by (symmetry; unfold cs; caps_tac).
    replace (cap "amount2" (note_caps o ++ cs ++ [("account"%string, a)])) with (lit_text l2) by (symmetry; unfold cs; caps_tac).
    replace (cap "commodity2" (note_caps o ++ cs ++ [("account"%string, a)])) with i2 by (symmetry; unfold cs; caps_tac).
    replace (cap "account" (note_caps o ++ cs ++ [("account"%string, a)])) with a by (symmetry; unfold cs; caps_tac).
    destruct (lit_nonempty l Hl) as (x & y & EX). destruct (lit_nonempty l2 Hl2) as (x2 & y2 & EX2). rewrite EX in EP |- *. rewrite EX2 in EP2 |- *. unfold must_find. rewrite Hf, Hf2. cbn [bind]. rewrite EP, EP2. cbn [bind]. rewrite HF. reflexivity.
Qed.

(** ** note lines *)
Lemma run_split sp s run rest : forallb is_space sp = true -> hd_not is_space s -> sp ++ s = run ++ rest -> forallb is_space run = true ->
  (exists c r, rest = c :: r /\ is_space c = true) \/ rest = s.
Proof.
  revert sp. induction run as [|c run IH]; intros sp Hs Hh E Hr.
  - cbn [app] in E. subst rest. destruct sp as [|x sp]; [right; reflexivity|]. left. cbn in Hs. apply andb_true_iff in Hs as [Hx _]. cbn [app]. eauto.
  - cbn in Hr. apply andb_true_iff in Hr as [Hc Hr]. destruct sp as [|x sp].
    + cbn [app] in E. subst s. cbn in Hh. congruence.
    + cbn [app] in E. injection E as <- E. cbn in Hs. apply andb_true_iff in Hs as [_ Hs]. exact (IH sp Hs Hh E Hr).
Qed.
Lemma search_note sp y : gap sp -> line_text y -> rsearch postingREX (sp ++ B ";" ++ y) = Some ([], [("note"%string, unspace y)]).
Proof.
  intros Hs Hy. rewrite postingREX_eq. rewrite <- (app_nil_r (sp ++ B ";" ++ y)).
  apply takes_search with (P := at_end); [|reflexivity].
  apply takes_alt_r.
  - intros rest ->. rewrite app_nil_r. cbn [rseq]. apply fails_plus_seq. intros run rest E Hr1 Hr2.
    apply fails_seq_l, fails_grp, fails_seq_l, fails_seq_l, fails_set.
    destruct (run_split sp (B ";" ++ y) run rest (blanks_space _ (proj2 Hs)) eq_refl E Hr2) as [(c & r & -> & Hc)| ->].
    + cbn. apply space_not_alpha, Hc.
    + reflexivity.
  - eapply takes_eq; [eapply takes_seq with (t1 := sp) (c1 := []) (P1 := hd_not is_space);
     [apply takes_gap; [exact Hs|auto]|apply takes_semi_any, Hy|]| |].
    + intros; reflexivity.
    + reflexivity.
    + reflexivity.
Qed.
Lemma tx_loop_note e n l : note_line n l -> forall rest nr tn ps pend,
  tx_loop e (l :: rest) nr tn ps pend = tx_loop e rest (S nr) tn ps (pend ++ [n]).
Proof.
  assert (G : forall (n : bytes) sp y, gap sp -> line_text y -> unspace y = n -> n <> [] -> forall rest nr tn ps pend,
    tx_loop e ((sp ++ B ";" ++ y) :: rest) nr tn ps pend = tx_loop e rest (S nr) tn ps (pend ++ [n])).
  { clear. intros n sp y Hs Hy E N rest nr tn ps pend. cbn [tx_loop]. rewrite (search_note sp y Hs Hy), E.
    change (cap "note" [("note"%string, n)]) with n. destruct n; [congruence|reflexivity]. }
  intros [sp n' Hs N Hl|sp n' Hs N Hl Hsp].
  - apply (G n' sp (" "%char :: n')); auto. constructor; [|exact Hl]. split; discriminate.
  - apply (G n' sp n'); auto. unfold unspace. destruct n' as [|c r]; [reflexivity|]. cbn in Hsp. apply not_true_is_false in Hsp. rewrite Hsp. reflexivity.
Qed.
Lemma tx_loop_noted e ns ls : Forall2 note_line ns ls -> forall rest nr tn ps pend,
  tx_loop e (ls ++ rest) nr tn ps pend = tx_loop e rest (nr + List.length ls) tn ps (pend ++ ns).
Proof.
  induction 1 as [|n l ns ls H _ IH]; intros rest nr tn ps pend.
  - cbn [app List.length]. rewrite app_nil_r, Nat.add_0_r. reflexivity.
  - cbn [app]. rewrite (tx_loop_note e n l H), IH, <- app_assoc. cbn [app List.length]. f_equal. lia.
Qed.
Lemma tx_loop_block e p ls : S_Written.posting_lines e p ls -> forall rest nr tn ps pend tn' ps', flush tn ps pend = Ok (tn', ps') ->
  exists nts pend', ps_notes p = nts ++ pend' /\
  tx_loop e (ls ++ rest) nr tn ps pend =
  tx_loop e rest (nr + List.length ls) tn' (ps' ++ [mkPosting (ps_account p) (ps_quantity p) (ps_balance p) nts]) pend'.
Proof.
  intros [a q b ns l ns' ls' HL HN] rest nr tn ps pend tn' ps' HF. exists ns, ns'. split; [reflexivity|]. cbn [app ps_account ps_quantity ps_balance].
  rewrite (tx_loop_line e _ l HL _ _ _ _ _ _ _ HF), (tx_loop_noted e ns' ls' HN). cbn [app List.length]. f_equal. lia.
Qed.
Lemma tx_loop_blocks e PS lls : Forall2 (S_Written.posting_lines e) PS lls -> forall rest nr tn done s pend, stops rest ->
  exists ps pend', tx_loop e (concat lls ++ rest) nr tn (done ++ [s]) pend
      = Ok (tn, ps, pend', mkParser rest (nr + List.length (concat lls))) /\
    close_notes ps pend' = Ok (done ++ [add_notes s pend] ++ PS).
Proof.
  induction 1 as [|p ls PS lls Hp _ IH]; intros rest nr tn done s pend Hst.
  - cbn [concat app List.length]. rewrite (tx_loop_stop _ _ _ _ _ _ Hst), Nat.add_0_r. do 2 eexists. split; [reflexivity|]. apply close_last.
  - cbn [concat]. rewrite <- app_assoc.
    destruct (tx_loop_block e p ls Hp (concat lls ++ rest) nr tn (done ++ [s]) pend _ _ (flush_last _ _ _ _)) as (nts & pend1 & En & E). rewrite E.
    destruct (IH rest (nr + List.length ls)%nat tn (done ++ [add_notes s pend])
      (mkPosting (ps_account p) (ps_quantity p) (ps_balance p) nts) pend1 Hst) as (ps & pend' & E1 & E2).
    exists ps, pend'. rewrite E1, app_length, Nat.add_assoc. split; [reflexivity|]. rewrite E2. f_equal.
    rewrite <- app_assoc. cbn [app]. do 3 f_equal. unfold add_notes. cbn [ps_account ps_quantity ps_balance ps_notes].
    rewrite <- En. destruct p; reflexivity.
Qed.

(** ** the header *)
Lemma date_read td d dt : date_is td d dt -> exists ys ms ds, date_ok ys ms ds /\ dt = date_text ys ms ds /\
  d = go_date (resolve_year td ys ms) (num ms) (num ds).
Proof.
  intros [ys ms ds d' Hy Hm Hd E|ms ds d' Hm Hd E].
  - assert (O : date_ok ys ms ds) by (split; [right; exact Hy|split; assumption]).
    assert (ET : ymd_text ys ms ds = date_text ys ms ds) by (destruct ys; [destruct Hy as [[_ Hy]|[_ Hy]]; discriminate|reflexivity]).
    exists ys, ms, ds. split; [exact O|]. split; [exact ET|]. rewrite ET, (set_date_text td ys ms ds O) in E. injection E as <-. reflexivity.
  - assert (O : date_ok [] ms ds) by (split; [left; reflexivity|split; assumption]).
    exists [], ms, ds. split; [exact O|]. split; [reflexivity|]. change (md_text ms ds) with (date_text [] ms ds) in E.
    rewrite (set_date_text td [] ms ds O) in E. injection E as <-. reflexivity.
Qed.
Definition dcaps (ys ms ds : list Z) : caps := ("date"%string, date_text ys ms ds) :: ymd_caps ys ms ds (date_text ys ms ds).
(** captures of the rest of the header *)
Definition hrest (o : option bytes) (x : option bytes) (c : bytes) : caps :=
  note_caps o ++ (match x with Some v => [("description"%string, v)] | None => [] end) ++ code_caps c.
Lemma header_date td ys ms ds o x c : date_ok ys ms ds ->
  must_parse_date td (hrest o x c ++ dcaps ys ms ds) = Ok (go_date (resolve_year td ys ms) (num ms) (num ds)).
Proof.
  intros O. unfold must_parse_date. destruct td as [[y m] d].
  assert (G := parse_date_caps y m d ys ms ds O (hrest o x c ++ [("date"%string, date_text ys ms ds)]) []).
  rewrite app_nil_r, <- app_assoc in G. cbn [app] in G. unfold dcaps. rewrite G; [reflexivity| |intros; constructor].
  intros n Hn. unfold hrest. rewrite !Forall_app.
  assert (F : forall (z : string) (v : bytes), ~ In z ["ymd"; "ymdd"; "ymdm"; "ymdy"; "offset"]%string -> Forall (fun p : string * bytes => n <> fst p) [(z, v)]).
  { intros z v Hz. constructor; [|constructor]. cbn. intros ->. contradiction. }
  split; [split; [|split]|].
  - destruct o; [apply F|constructor]. cbn. intuition discriminate.
  - destruct x; [apply F|constructor]. cbn. intuition discriminate.
  - destruct c; [constructor|apply F]. cbn. intuition discriminate.
  - apply F. cbn. intuition discriminate.
Qed.
Lemma takes_code_w c ct (P : bytes -> Prop) : code_is c ct -> (c = [] -> forall rest, P rest -> fails rx_code rest) ->
  takes (ROpt rx_code) ct (code_caps c) P.
Proof.
  intros [|sp c' Hs N Hc] HP; [apply takes_opt_none, HP; reflexivity|]. apply takes_opt_some.
  replace (code_caps c') with [("code"%string, c')] by (destruct c'; [congruence|reflexivity]). unfold rx_code. cbn [rseq].
  eapply takes_eq; [eapply takes_seq with (t1 := sp) (c1 := []) (P1 := hd_not is_space);
    [apply takes_gap; [exact Hs|auto]|
     eapply takes_seq with (t1 := ["("%char]) (c1 := []) (P1 := fun _ => True); [apply takes_char|
       eapply takes_seq with (t1 := c') (t2 := [")"%char]) (c2 := []) (P1 := hd_not is_word) (P2 := P);
         [apply takes_grp, takes_plus; [exact N|exact Hc|auto]|apply takes_char|]|]|]| |].
  - intros; reflexivity.
  - intros; exact I.
  - intros; reflexivity.
  - reflexivity.
  - reflexivity.
Qed.
Lemma code_ends c ct rest : code_is c ct -> (rest = [] \/ tail_head rest) -> ends_date (ct ++ rest).
Proof.
  assert (G : forall r, tail_head r -> ends_date r).
  { intros [|z r] H; [exact I|]. cbn in H |- *. rewrite (tailc_not_digit _ H). split; [reflexivity|]. repeat split; intros ->; discriminate. }
  intros [|sp c' Hs N Hc] Hr; [destruct Hr as [->|Hr]; [exact I|apply G, Hr]|]. rewrite <- app_assoc. apply G.
  assert (H := gap_head sp ((B "(" ++ c' ++ B ")") ++ rest) Hs). destruct (sp ++ _); [exact I|]. cbn in H |- *. unfold tailc. rewrite H. reflexivity.
Qed.
Lemma tail_desc ns t : tail_is ns t -> exists sp y o, t = sp ++ y /\ blanks sp /\ takes (ROpt (semi_note "shortNote")) y (note_caps o) at_end /\
  listed o = ns /\ (y = [] \/ exists z, y = ";"%char :: z).
Proof.
  intros [sp Hs|sp b n Hs Hb Hn|sp b Hs Hb].
  - exists sp, [], None. split; [symmetry; apply app_nil_r|]. split; [exact Hs|]. split; [|split; [reflexivity|left; reflexivity]].
    apply takes_opt_none. intros rest ->. intros R cs k. reflexivity.
  - exists sp, (B ";" ++ b ++ n), (Some (unspace (b ++ n))). split; [reflexivity|]. split; [exact Hs|].
    split; [apply takes_opt_some, takes_semi_any, line_app; [apply blanks_line, Hb|apply line_note, Hn]|]. split; [apply note_listed; assumption|right; eexists; reflexivity].
  - exists sp, (B ";" ++ b), (Some (unspace b)). split; [reflexivity|]. split; [exact Hs|].
    split; [apply takes_opt_some, takes_semi_any, blanks_line, Hb|]. split; [apply empty_listed; assumption|right; eexists; reflexivity].
Qed.
Lemma code_like_tail d ext : tail_head ext -> code_like (d ++ ext) -> code_like d.
Proof.
  intros He (w & r & Hn & Hw & E).
  assert (E' : (B "(" ++ w ++ B ")") ++ r = d ++ ext) by (rewrite E, <- !app_assoc; reflexivity). clear E.
  destruct (app_eq_app _ _ _ _ E') as (l & [[E1 E2]|[E1 E2]]).
  - destruct l as [|x l].
    + rewrite app_nil_r in E1. exists w, []. repeat split; auto.
    + rewrite E2 in He. cbn in He. exfalso.
      assert (Hin : In x (B "(" ++ w ++ B ")")) by (rewrite E1; apply in_or_app; right; left; reflexivity).
      apply in_app_or in Hin as [[H|[]]|Hin]; [subst x; discriminate|]. apply in_app_or in Hin as [Hin|[H|[]]]; [|subst x; discriminate].
      rewrite forallb_forall in Hw. apply Hw in Hin. apply tailc_not_word in He. congruence.
  - exists w, l. repeat split; auto. rewrite E1, <- !app_assoc. reflexivity.
Qed.
Lemma no_code sp s : forallb is_space sp = true -> hd_not is_space s -> ~ code_like s -> fails rx_code (sp ++ s).
Proof.
  intros Hs Hh HC. unfold rx_code. cbn [rseq]. apply fails_plus_seq. intros run rest E _ Hr.
  destruct (run_split sp s run rest Hs Hh E Hr) as [(c & r & -> & Hc)| ->].
  - apply fails_seq_l, fails_set. cbn. destruct (eqc "("%char c) eqn:Ec; [|reflexivity]. apply eqc_eq in Ec. subst c. discriminate.
  - apply fails_code1, HC.
Qed.
Lemma no_desc sp s : forallb is_space sp = true -> (s = [] \/ sp = []) -> hd_not is_space s -> fails rx_desc (sp ++ s).
Proof.
  intros Hs D Hh. unfold rx_desc. apply fails_plus_seq. intros run rest E N Hr.
  destruct (run_split sp s run rest Hs Hh E Hr) as [(c & r & -> & Hc)| ->].
  - apply fails_grp, fails_seq_l, fails_set. cbn. rewrite Hc. reflexivity.
  - destruct D as [->| ->]; [intros R cs k; reflexivity|]. cbn [app] in E. exfalso. destruct run as [|x run]; [congruence|].
    assert (L := f_equal (@List.length ascii) E). cbn [app List.length] in L. rewrite app_length in L. lia.
Qed.
Lemma trim_right_blanks x sp : desc_text_ok x -> blanks sp -> trim_right (x ++ sp) = x.
Proof.
  intros (_ & _ & _ & Hr) Hs. unfold trim_right. rewrite rev_app_distr, trim_blanks by (unfold blanks in *; apply Forall_rev, Hs).
  assert (E : trim_left (rev x) = rev x).
  { destruct (rev x) as [|c r]; [reflexivity|]. cbn in Hr |- *. destruct (is_blank_char c) eqn:Eb; [|reflexivity].
    apply blank_is_space in Eb. contradiction. }
  rewrite E. apply rev_involutive.
Qed.
Lemma takes_desc_w sp x sp' : gap sp -> x <> [] -> desc_text_ok x -> blanks sp' ->
  takes rx_desc (sp ++ x ++ sp') [("description"%string, x ++ sp')] (hd_not not_semi).
Proof.
  intros Hg Hn (_ & Hs & Hsp & _) Hb. unfold rx_desc. destruct x as [|c d]; [congruence|].
  cbn in Hsp. apply not_true_is_false in Hsp.
  eapply takes_eq; [eapply takes_seq with (t1 := sp) (c1 := []) (P1 := hd_not is_space);
    [apply takes_gap; [exact Hg|auto]|
     apply takes_grp; eapply takes_seq with (t1 := [c]) (t2 := d ++ sp') (c1 := []) (c2 := []) (P1 := fun _ => True);
       [apply takes_set; rewrite Hsp; reflexivity|apply takes_star; [|intros rest HR; exact HR]|]|]| |].
  - apply forallb_forall. intros z Hz. unfold not_semi. destruct (eqc z ";"%char) eqn:E; [|reflexivity].
    apply eqc_eq in E. subst z. exfalso. apply in_app_or in Hz as [Hz|Hz].
    + apply Hs. right. exact Hz.
    + unfold blanks in Hb. rewrite Forall_forall in Hb. apply Hb in Hz as [Hz|Hz]; discriminate.
  - intros; exact I.
  - intros rest _. cbn. exact Hsp.
  - reflexivity.
  - reflexivity.
Qed.
Lemma header_read e d c x ns h : header_is e d c x ns h -> exists rs cs, rsearch transactionREX h = Some (rs, cs) /\
  must_parse_date (e_today e) cs = Ok d /\ cap "code" cs = c /\ trim_right (cap "description" cs) = x /\ short_note cs = ns.
Proof.
  assert (GO : forall dt ct c rest o v lf tk ys ms ds, date_ok ys ms ds -> dt = date_text ys ms ds -> code_is c ct ->
    takes (RSeq (ROpt rx_desc) (ROpt (semi_note "shortNote"))) tk (note_caps o ++ (match v with Some v => [("description"%string, v)] | None => [] end)) (fun s => s = lf) ->
    rest = tk ++ lf -> (c = [] -> fails rx_code rest) -> (rest = [] \/ tail_head rest) ->
    rsearch transactionREX (dt ++ ct ++ rest) = Some (lf, hrest o v c ++ dcaps ys ms ds)).
  { intros dt ct c' rest o v lf tk ys ms ds O -> HC T -> HF HE.
    replace (date_text ys ms ds ++ ct ++ tk ++ lf) with ((date_text ys ms ds ++ ct ++ tk) ++ lf) by (rewrite <- !app_assoc; reflexivity).
    rewrite transactionREX_eq. apply takes_search with (P := fun s => s = lf); [|reflexivity].
    assert (TD := takes_date ys ms ds O). rewrite DateREX_eq in TD.
    eapply takes_eq; [eapply takes_seq with (P1 := ends_date); [exact TD|
      eapply takes_seq with (P1 := fun s => s = tk ++ lf); [apply (takes_code_w c' ct); [exact HC|]|exact T|]|]| |].
    - intros Ec rest ->. apply HF, Ec.
    - intros rest ->. reflexivity.
    - intros rest ->. rewrite <- app_assoc. eapply code_ends; [exact HC|exact HE].
    - reflexivity.
    - unfold hrest. rewrite <- !app_assoc. reflexivity. }
  assert (CC : forall o v c ys ms ds, cap "code" (hrest o v c ++ dcaps ys ms ds) = c).
  { intros o v c' ys ms ds. unfold hrest, dcaps, ymd_caps. destruct o, v, c', ys; reflexivity. }
  assert (CS : forall o v c ys ms ds, short_note (hrest o v c ++ dcaps ys ms ds) = listed o).
  { intros o v c' ys ms ds. unfold hrest. rewrite <- app_assoc. apply short_listed. unfold dcaps, ymd_caps. destruct v, c', ys; reflexivity. }
  assert (CD : forall o v c ys ms ds, cap "description" (hrest o v c ++ dcaps ys ms ds) = match v with Some v => v | None => [] end).
  { intros o v c' ys ms ds. unfold hrest, dcaps, ymd_caps. destruct o, v, c', ys; reflexivity. }
  intros [d' dt c' ct sp HD HC Hs|d' dt c' ct b n HD HC Hb Hn|d' dt c' ct sp x' ns' t HD HC Hg Hx Hxo Hcl HT];
    destruct (date_read _ _ _ HD) as (ys & ms & ds & O & Edt & Ed).
  - exists sp, (hrest None None c' ++ dcaps ys ms ds). split; [apply (GO dt ct c' sp None None sp [] ys ms ds); auto|].
    + eapply takes_eq; [eapply takes_seq with (t1 := []) (t2 := []) (c1 := []) (c2 := []) (P1 := fun s => s = sp); [apply takes_opt_none|apply takes_opt_none|]|reflexivity|reflexivity].
      * intros rest ->. rewrite <- (app_nil_r sp). apply no_desc; [apply blanks_space, Hs|left; reflexivity|exact I].
      * intros rest ->. unfold semi_note. cbn [rseq]. apply fails_seq_l, fails_set. destruct sp as [|z sp]; [exact I|].
        apply blanks_space in Hs. cbn in Hs |- *. apply andb_true_iff in Hs as [Hz _]. apply space_not_semi, Hz.
      * intros rest ->. reflexivity.
    + intros _. rewrite <- (app_nil_r sp). apply no_code; [apply blanks_space, Hs|exact I|]. intros (w & r & _ & _ & E). discriminate.
    + right. destruct sp as [|z sp]; [exact I|]. apply blanks_space in Hs. cbn in Hs |- *. apply andb_true_iff in Hs as [Hz _]. unfold tailc. rewrite Hz. reflexivity.
    + rewrite header_date, CC, CS, CD by exact O. subst d'. repeat split.
  - set (y := b ++ n). assert (HY : line_text y) by (apply line_app; [apply blanks_line, Hb|apply line_note, Hn]).
    exists [], (hrest (Some (unspace y)) None c' ++ dcaps ys ms ds). split; [apply (GO dt ct c' (B ";" ++ y) (Some (unspace y)) None [] (B ";" ++ y) ys ms ds); auto|].
    + eapply takes_eq; [eapply takes_seq with (t1 := []) (t2 := B ";" ++ y) (c1 := []) (P1 := fun s => s = B ";" ++ y); [apply takes_opt_none|apply takes_opt_some, takes_semi_any, HY|]|reflexivity|reflexivity].
      * intros rest ->. apply (no_desc [] (B ";" ++ y)); [reflexivity|right; reflexivity|reflexivity].
      * intros rest HR. unfold at_end in HR. subst rest. apply app_nil_r.
    + rewrite app_nil_r. reflexivity.
    + intros _. apply (no_code [] (B ";" ++ y)); [reflexivity|reflexivity|]. intros (w & r & _ & _ & E). discriminate.
    + right. reflexivity.
    + rewrite header_date, CC, CS, CD by exact O. subst d'. repeat split. apply note_listed; assumption.
  - destruct (tail_desc _ _ HT) as (sp' & y & o & -> & Hb & TN & EL & Hy).
    assert (TH : tail_head (sp' ++ y)).
    { destruct sp' as [|z sp']; [destruct Hy as [->|(z & ->)]; [exact I|reflexivity]|]. apply blanks_space in Hb. cbn in Hb |- *. apply andb_true_iff in Hb as [Hz _]. unfold tailc. rewrite Hz. reflexivity. }
    exists [], (hrest o (Some (x' ++ sp')) c' ++ dcaps ys ms ds).
    split; [apply (GO dt ct c' (sp ++ x' ++ sp' ++ y) o (Some (x' ++ sp')) [] (sp ++ x' ++ sp' ++ y) ys ms ds); auto|].
    + eapply takes_eq; [eapply takes_seq with (t1 := sp ++ x' ++ sp') (t2 := y) (P1 := hd_not not_semi); [apply takes_opt_some, takes_desc_w; assumption|exact TN|]|rewrite <- !app_assoc; reflexivity|reflexivity].
      intros rest HR. unfold at_end in HR. subst rest. rewrite app_nil_r. destruct Hy as [->|(z & ->)]; [exact I|reflexivity].
    + rewrite app_nil_r. reflexivity.
    + intros Ec. apply no_code; [apply blanks_space, Hg| |].
      * destruct Hxo as (_ & _ & Hsp & _). destruct x' as [|z x']; [congruence|]. cbn in Hsp |- *. apply not_true_is_false, Hsp.
      * intros HL. apply (Hcl Ec), (code_like_tail x' (sp' ++ y)); assumption.
    + right. assert (H := gap_head sp (x' ++ sp' ++ y) Hg). destruct (sp ++ _); [exact I|]. cbn in H |- *. unfold tailc. rewrite H. reflexivity.
    + rewrite header_date, CC, CS, CD by exact O. subst d'. repeat split; [apply trim_right_blanks; assumption|exact EL].
Qed.

(** ** a whole transaction *)
Lemma transaction_read e t ls rest nr : transaction_lines e t ls -> stops rest ->
  exists l ls', ls = l :: ls' /\ hd_is is_digit l /\
    parse_transaction e l (ls' ++ rest) nr = Ok (at_line nr t, mkParser rest (nr + List.length ls)).
Proof.
  intros [d c x ns h ns' hls ps pls n HH HN Hne HP] Hst. exists h, (hls ++ concat pls). split; [reflexivity|]. split.
  - assert (D : forall dt r, date_is (e_today e) d dt -> hd_is is_digit (dt ++ r)).
    { intros dt r HD. destruct (date_read _ _ _ HD) as (ys & ms & ds & (Hy & (Hm & Lm) & _) & -> & _). unfold date_text.
      assert (M : hd_is is_digit (md_text ms ds ++ r)).
      { unfold md_text. rewrite <- !app_assoc. unfold dtext at 1. destruct ms as [|m0 ms]; [cbn in Lm; lia|]. cbn. apply digit_char_is_digit. inversion Hm; assumption. }
      destruct ys as [|y0 yr]; [exact M|]. unfold ymd_text. cbn. apply digit_char_is_digit.
      destruct Hy as [Hy|[[Hy _]|[Hy _]]]; [discriminate| |]; inversion Hy; assumption. }
    destruct HH as [d' dt c' ct sp HD HC Hs|d' dt c' ct b n' HD HC Hb Hn|d' dt c' ct sp x' ns'' t0 HD HC Hg Hx Hxo Hcl HT]; apply D, HD.
  - destruct (header_read _ _ _ _ _ _ HH) as (rs & cs & E1 & E2 & E3 & E4 & E5). unfold parse_transaction. rewrite E1, E2. cbn [bind].
    rewrite E5, <- app_assoc, (tx_loop_noted e ns' hls HN). cbn [app].
    destruct HP as [|p pl PS lls H1 H2]; [congruence|].
    assert (EF : flush ns [] ns' = Ok (ns ++ ns', [])) by (destruct ns'; [rewrite app_nil_r|]; reflexivity).
    cbn [concat]. rewrite <- app_assoc.
    destruct (tx_loop_block e p pl H1 (concat lls ++ rest) (S nr + List.length hls) ns [] ns' _ _ EF) as (nts & pend1 & En & E). rewrite E.
    destruct (tx_loop_blocks e PS lls H2 rest (S nr + List.length hls + List.length pl) (ns ++ ns') []
      (mkPosting (ps_account p) (ps_quantity p) (ps_balance p) nts) pend1 Hst) as (ps' & pend' & E6 & E7).
    cbn [app] in E6 |- *. rewrite E6. cbn [bind]. unfold close_notes in E7. rewrite E7. cbn [bind]. rewrite E3, E4. f_equal. f_equal.
    + unfold at_line. cbn [t_posted t_code t_desc t_notes t_postings]. f_equal. cbn [app]. f_equal. unfold add_notes. cbn [ps_account ps_quantity ps_balance ps_notes].
      rewrite <- En. destruct p; reflexivity.
    + f_equal. cbn [List.length]. rewrite !app_length. lia.
Qed.
Lemma blanks_stop sep rest : blanks sep -> stops (sep :: rest).
Proof.
  intros H. cbn [stops]. rewrite postingREX_eq. apply blanks_space in H.
  assert (F : forall s, forallb is_space s = true -> fails (RAlt (rseq [rplus s_; rx_account; ROpt (rseq [rplus s_; rx_amount_n "amount1" "decimals1" "commodity1"; ROpt rx_bal]); ROpt rx_short]) (RSeq (rplus s_) (semi_note "note"))) s).
  { intros s Hs. apply fails_alt.
    - cbn [rseq]. apply fails_plus_seq. intros run rest' E _ Hr. apply fails_seq_l, fails_grp, fails_seq_l, fails_seq_l, fails_set.
      rewrite E, forallb_app in Hs. apply andb_true_iff in Hs as [_ Hs]. destruct rest' as [|c r]; [exact I|]. cbn in Hs |- *. apply andb_true_iff in Hs as [Hc _]. apply space_not_alpha, Hc.
    - apply fails_plus_seq. intros run rest' E _ Hr. unfold semi_note. cbn [rseq]. apply fails_seq_l, fails_set.
      rewrite E, forallb_app in Hs. apply andb_true_iff in Hs as [_ Hs]. destruct rest' as [|c r]; [exact I|]. cbn in Hs |- *. apply andb_true_iff in Hs as [Hc _]. apply space_not_semi, Hc. }
  revert H F. generalize (RAlt (rseq [rplus s_; rx_account; ROpt (rseq [rplus s_; rx_amount_n "amount1" "decimals1" "commodity1"; ROpt rx_bal]); ROpt rx_short]) (RSeq (rplus s_) (semi_note "note"))).
  intros r H F. induction sep as [|c sep IH].
  - cbn. unfold rprefix. rewrite (F [] eq_refl). reflexivity.
  - cbn [rsearch]. unfold rprefix. rewrite (F _ H). cbn in H. apply andb_true_iff in H as [_ H]. exact (IH H).
Qed.
Lemma next_between e pre : between pre -> forall ls nr, next_lines e (pre ++ ls) nr = next_lines e ls (nr + List.length pre).
Proof.
  induction 1 as [|l pre Hl _ IH]; intros ls nr; [cbn [app List.length]; rewrite Nat.add_0_r; reflexivity|].
  assert (E : next_lines e (l :: pre ++ ls) nr = next_lines e (pre ++ ls) (S nr)).
  { cbn [next_lines]. destruct Hl as [Hl|[(c & r & -> & Hc) _]].
    - replace (blank l) with true; [reflexivity|]. symmetry. unfold blank. apply blanks_space in Hl. rewrite forallb_forall in *. intros c Hc. unfold is_ascii_space. rewrite (Hl c Hc). reflexivity.
    - destruct (blank (c :: r)); [reflexivity|]. replace (existsb (eqc c) (B ";#%|*")) with true; [reflexivity|].
      symmetry. apply existsb_exists. exists c. split; [exact Hc|]. apply eqc_eq. reflexivity. }
  cbn [app]. rewrite E, IH. cbn [List.length]. f_equal. lia.
Qed.
Lemma next_written e t ls rest nr : transaction_lines e t ls -> stops rest ->
  next_lines e (ls ++ rest) nr = Ok (Some (ITransaction (at_line nr t), e_default e, mkParser rest (nr + List.length ls))).
Proof.
  intros H Hst. destruct (transaction_read e t ls rest nr H Hst) as (l & ls' & -> & Hd & E). cbn [app].
  destruct l as [|c r]; [contradiction|]. cbn in Hd. rewrite next_digit by exact Hd. rewrite E. reflexivity.
Qed.
Lemma read_written e ts ls : entries_are e ts ls -> forall pre fuel nr, between pre -> (List.length ts < fuel)%nat ->
  exists ts', read_items fuel e (mkParser (pre ++ ls) nr) = Ok (map ITransaction ts') /\ Forall2 same_transaction ts ts'.
Proof.
  assert (Z : forall pre fuel nr, between pre -> (0 < fuel)%nat -> read_items fuel e (mkParser pre nr) = Ok []).
  { intros pre fuel nr HB Hf. destruct fuel as [|fuel]; [lia|]. cbn [read_items]. unfold next. cbn [p_lines p_nr].
    rewrite <- (app_nil_r pre), (next_between e pre HB). reflexivity. }
  induction 1 as [|t ls HT|t ls sep rest ts more HT Hs HB _ IH]; intros pre fuel nr HP Hf.
  - rewrite app_nil_r, (Z pre fuel nr HP) by (cbn in Hf; lia). exists []. split; [reflexivity|constructor].
  - destruct fuel as [|fuel]; [cbn in Hf; lia|]. cbn [read_items]. unfold next. cbn [p_lines p_nr]. rewrite (next_between e pre HP).
    rewrite <- (app_nil_r ls), (next_written e t ls [] _ HT I). cbn [bind]. rewrite env_eta. rewrite (Z [] fuel) by (constructor || (cbn in Hf; lia)). cbn [bind].
    eexists [_]. split; [reflexivity|]. constructor; [reflexivity|constructor].
  - destruct fuel as [|fuel]; [cbn in Hf; lia|]. cbn [read_items]. unfold next. cbn [p_lines p_nr]. rewrite (next_between e pre HP).
    rewrite (next_written e t ls (sep :: rest ++ more) _ HT (blanks_stop _ _ Hs)). cbn [bind]. rewrite env_eta.
    destruct (IH (sep :: rest) fuel (nr + List.length pre + List.length ls)%nat) as (ts' & E1 & E2); [constructor; [left; exact Hs|exact HB]|cbn in Hf; lia|].
    cbn [app] in E1. rewrite E1. cbn [bind]. eexists (_ :: ts'). split; [reflexivity|]. constructor; [reflexivity|exact E2].
Qed.

(** ** lines *)
Lemma gap_line sp : gap sp -> line_text sp. Proof. intros [_ H]. apply blanks_line, H. Qed.
Lemma line_tail ns t : tail_is ns t -> line_text t.
Proof.
  intros [sp Hs|sp b n Hs Hb Hn|sp b Hs Hb]; repeat apply line_app; try (apply blanks_line; assumption); try (apply line_lit; reflexivity). apply line_note, Hn.
Qed.
Lemma line_amount e q t : amount_is e q t -> line_text t.
Proof. intros [l sp i c Hl Hsp Hi _ _ _ _]. apply line_app; [apply line_literal, Hl|]. apply line_app; [apply gap_line, Hsp|apply line_id, Hi]. Qed.
Lemma line_pline e p l : posting_line e p l -> line_text l.
Proof.
  intros [sp a ns t Hs Ha HT|sp a sp2 q qt ns t Hs Ha H2 HQ HT|sp a sp2 q qt sp3 sp4 b bt ns t Hs Ha H2 HQ H3 H4 HB HT];
    repeat apply line_app; try (apply gap_line; assumption); try (apply line_name; assumption); try (eapply line_tail; eassumption);
    try (eapply line_amount; eassumption). apply line_lit. reflexivity.
Qed.
Lemma line_nline n l : note_line n l -> line_text l.
Proof. intros [sp n' Hs N Hl|sp n' Hs N Hl Hsp]; repeat apply line_app; try (apply gap_line; assumption); try assumption; apply line_lit; reflexivity. Qed.
Lemma line_nlines ns ls : Forall2 note_line ns ls -> Forall line_text ls.
Proof. induction 1; constructor; [eapply line_nline; eassumption|assumption]. Qed.
Lemma line_md ms ds : d12_ok ms -> d12_ok ds -> line_text (md_text ms ds).
Proof. intros [H _] [H' _]. unfold md_text, dtext. apply line_app; [apply line_digits, H|]. apply line_app; [apply line_lit; reflexivity|apply line_digits, H']. Qed.
Lemma line_date_is td d dt : date_is td d dt -> line_text dt.
Proof.
  intros [ys ms ds d' Hy Hm Hd E|ms ds d' Hm Hd E]; [|apply line_md; assumption].
  unfold ymd_text. apply line_app; [unfold dtext; apply line_digits; destruct Hy as [[H _]|[H _]]; exact H|]. apply line_app; [apply line_lit; reflexivity|apply line_md; assumption].
Qed.
Lemma line_code c ct : code_is c ct -> line_text ct.
Proof.
  intros [|sp c' Hs N Hc]; [constructor|]. apply line_app; [apply gap_line, Hs|]. apply line_app; [apply line_lit; reflexivity|]. apply line_app; [|apply line_lit; reflexivity].
  eapply line_of; [apply word_lchar|exact Hc].
Qed.
Lemma line_header e d c x ns h : header_is e d c x ns h -> line_text h.
Proof.
  intros [d' dt c' ct sp HD HC Hs|d' dt c' ct b n HD HC Hb Hn|d' dt c' ct sp x' ns' t HD HC Hg Hx Hxo Hcl HT];
    (apply line_app; [eapply line_date_is; eassumption|]); (apply line_app; [eapply line_code; eassumption|]).
  - apply blanks_line, Hs.
  - apply line_app; [apply line_lit; reflexivity|]. apply line_app; [apply blanks_line, Hb|apply line_note, Hn].
  - apply line_app; [apply gap_line, Hg|]. apply line_app; [apply Hxo|eapply line_tail; eassumption].
Qed.
Lemma line_transaction e t ls : transaction_lines e t ls -> Forall line_text ls.
Proof.
  intros [d c x ns h ns' hls ps pls n HH HN Hne HP]. constructor; [eapply line_header; eassumption|]. apply Forall_app. split; [eapply line_nlines; eassumption|].
  clear -HP. induction HP as [|p l PS lls H _ IH]; [constructor|]. cbn [concat]. apply Forall_app. split; [|exact IH].
  destruct H as [a q b ns l' ns' ls' HL HN]. constructor; [eapply line_pline; eassumption|eapply line_nlines; eassumption].
Qed.
Lemma line_between pre : between pre -> Forall line_text pre.
Proof. intros H. eapply Forall_impl; [|exact H]. intros l [Hl|[_ Hl]]; [apply blanks_line, Hl|exact Hl]. Qed.
Lemma line_entries e ts ls : entries_are e ts ls -> Forall line_text ls.
Proof.
  induction 1 as [|t ls HT|t ls sep rest ts more HT Hs HB _ IH]; [constructor|eapply line_transaction; eassumption|].
  apply Forall_app. split; [eapply line_transaction; eassumption|]. constructor; [apply blanks_line, Hs|]. apply Forall_app. split; [apply line_between, HB|exact IH].
Qed.
Lemma split_none sep l : (forall c, In c l -> c <> sep) -> split_on sep l = [l].
Proof.
  induction l as [|c l IH]; intros H; [reflexivity|]. cbn [split_on]. replace (eqc c sep) with false.
  - rewrite IH; [reflexivity|]. intros x Hx. apply H. right. exact Hx.
  - symmetry. apply not_true_is_false. rewrite eqc_eq. apply H. left. reflexivity.
Qed.
Lemma split_nonempty sep l : split_on sep l <> [].
Proof. induction l as [|c l IH]; [discriminate|]. cbn [split_on]. destruct (eqc c sep); [discriminate|]. destruct (split_on sep l); discriminate. Qed.
Lemma drop_last_cons x (l : list bytes) : l <> [] -> drop_last_empty (x :: l) = x :: drop_last_empty l.
Proof. intros H. destruct l; [congruence|]. destruct x; reflexivity. Qed.
Lemma drop_cr_cr l : line_text l -> drop_cr (l ++ [chr 13]) = l.
Proof. intros H. unfold drop_cr. rewrite rev_app_distr. cbn [rev app]. change (code (chr 13) =? 13) with true. cbn match. apply rev_involutive. Qed.
Lemma scan_written ls text : text_lines ls text -> Forall line_text ls -> scan_lines text = ls.
Proof.
  unfold scan_lines. induction 1 as [|l Hl|l ls t _ IH|l ls t _ IH]; intros F.
  - reflexivity.
  - inversion F as [|? ? F1 _]; subst. rewrite split_none by (apply line_no_nl, F1). destruct l as [|c l]; [congruence|].
    cbn [drop_last_empty map]. rewrite drop_cr_line by exact F1. reflexivity.
  - apply Forall_cons_iff in F as [F1 F2]. change (chr 10) with nl. rewrite split_on_cons by (apply line_no_nl, F1).
    rewrite drop_last_cons by apply split_nonempty. cbn [map]. rewrite drop_cr_line by exact F1. f_equal. apply IH, F2.
  - apply Forall_cons_iff in F as [F1 F2]. change (chr 10) with nl.
    replace (l ++ chr 13 :: nl :: t) with ((l ++ [chr 13]) ++ nl :: t) by (rewrite <- app_assoc; reflexivity).
    rewrite split_on_cons.
    + rewrite drop_last_cons by apply split_nonempty. cbn [map]. rewrite drop_cr_cr by exact F1. f_equal. apply IH, F2.
    + intros c Hc. apply in_app_or in Hc as [Hc|[<-|[]]]; [apply (line_no_nl l F1 c Hc)|discriminate].
Qed.
Lemma entries_count e ts ls : entries_are e ts ls -> (List.length ts <= List.length ls)%nat.
Proof.
  assert (P : forall t ls, transaction_lines e t ls -> (1 <= List.length ls)%nat) by (intros t ls' [? ? ? ? ? ? ? ? ? ? ? ? ? ?]; cbn; lia).
  induction 1 as [|t ls HT|t ls sep rest ts more HT Hs HB _ IH]; [cbn; lia|cbn; specialize (P _ _ HT); lia|]. specialize (P _ _ HT). rewrite app_length. cbn [List.length]. rewrite app_length. lia.
Qed.
Lemma file_read e ts text : file_is e ts text ->
  exists ts', read_text e text = Ok (map ITransaction ts') /\ Forall2 same_transaction ts ts'.
Proof.
  intros [pre ts' ls text' HB HE HT]. unfold read_text, new_parser. rewrite (scan_written _ _ HT).
  - apply (read_written e ts' ls HE); [exact HB|]. assert (C := entries_count _ _ _ HE). rewrite app_length. lia.
  - apply Forall_app. split; [apply line_between, HB|eapply line_entries; eassumption].
Qed.
