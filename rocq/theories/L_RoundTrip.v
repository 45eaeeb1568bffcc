(** Written transactions are read back. *)
From Verif Require Import Base M_Amount M_Regex M_Date M_Parser M_Writer S_Decimal S_Date S_DateText S_Ledger
  L_Dec L_Amount L_Regex L_Date L_DateText L_Parser.

(** ** line texts *)
Definition lchar (c : ascii) : bool := negb (code c =? 10) && negb (code c =? 13).
Lemma line_text_b s : line_text s <-> forallb lchar s = true.
Proof.
  unfold line_text, lchar. rewrite forallb_forall, Forall_forall.
  split; intros H x Hx; specialize (H x Hx); lia.
Qed.
Lemma line_app a b : line_text a -> line_text b -> line_text (a ++ b).
Proof. intros. apply Forall_app. auto. Qed.
Lemma line_of (f : ascii -> bool) s : (forall c, f c = true -> lchar c = true) -> forallb f s = true -> line_text s.
Proof. intros H Hs. apply line_text_b. rewrite forallb_forall in *. auto. Qed.
Lemma word_lchar : forall c, is_word c = true -> lchar c = true. Proof. all_chars. Qed.
Lemma alpha_lchar : forall c, is_alpha c = true -> lchar c = true. Proof. all_chars. Qed.
Lemma acc_lchar : forall c, is_acc c = true -> lchar c = true. Proof. all_chars. Qed.
Lemma digit_lchar : forall c, is_digit c = true -> lchar c = true. Proof. all_chars. Qed.
Lemma line_lit s : forallb lchar (B s) = true -> line_text (B s).
Proof. apply line_text_b. Qed.
Lemma line_rep n : line_text (rep " "%char n).
Proof. apply line_text_b. unfold rep. induction n; [reflexivity|]. cbn [repeat forallb]. rewrite IHn. reflexivity. Qed.
Lemma line_id i : id_ok i -> line_text i.
Proof.
  intros (c & r & -> & Hc & Hr). apply line_text_b. cbn [forallb]. rewrite (alpha_lchar _ Hc). cbn [andb].
  apply line_text_b. eapply line_of; [apply word_lchar|exact Hr].
Qed.
Lemma line_seg s : seg_ok s -> line_text s.
Proof.
  intros (c & r & -> & Hc & Hr). apply name_chars_acc in Hr. apply line_text_b. cbn [forallb]. rewrite (alpha_lchar _ Hc). cbn [andb].
  apply line_text_b. eapply line_of; [apply acc_lchar|exact Hr].
Qed.
Lemma line_name n : name_ok n -> line_text n.
Proof.
  intros (segs & _ & Hs & ->). induction Hs as [|s [|s' segs] H HS IH]; [constructor|cbn; apply line_seg, H|].
  change (join (B ":") (s :: s' :: segs)) with (s ++ B ":" ++ join (B ":") (s' :: segs)).
  apply line_app; [apply line_seg, H|]. apply line_app; [apply line_lit; reflexivity|exact IH].
Qed.
Lemma line_digits ds : digits_ok ds -> line_text (map digit_char ds).
Proof. intros H. eapply line_of; [apply digit_lchar|]. apply map_digits_is_digit, H. Qed.
Lemma line_literal l : lit_ok l -> line_text (lit_text l).
Proof.
  intros (Hi & Hf & _). unfold lit_text. apply line_app; [destruct (l_neg l); [apply line_lit; reflexivity|constructor]|].
  apply line_app; [apply line_digits, Hi|]. destruct (l_frac l); [constructor|]. apply line_app; [apply line_lit; reflexivity|apply line_digits, Hf].
Qed.
Lemma line_date n : 0 <= year_of n <= 9999 -> line_text (format_date n).
Proof.
  intros Hy. destruct (format_date_text n Hy) as (ys & ms & ds & (H1 & _) & (H2 & _) & (H3 & _) & _ & _ & _ & ->).
  assert (E : line_text (md_text ms ds)).
  { unfold md_text, dtext. apply line_app; [apply line_digits, H2|]. apply line_app; [apply line_lit; reflexivity|apply line_digits, H3]. }
  unfold date_text. destruct ys; [exact E|]. unfold ymd_text. apply line_app; [apply line_digits, H1|].
  apply line_app; [apply line_lit; reflexivity|exact E].
Qed.

(** ** scanning lines *)
Lemma split_on_cons sep a b : (forall c, In c a -> c <> sep) -> split_on sep (a ++ sep :: b) = a :: split_on sep b.
Proof.
  induction a as [|c a IH]; intros H; cbn [app split_on].
  - rewrite eqc_refl. reflexivity.
  - replace (eqc c sep) with false.
    + rewrite IH; [reflexivity|]. intros x Hx. apply H. right. exact Hx.
    + symmetry. apply not_true_is_false. rewrite eqc_eq. apply H. left. reflexivity.
Qed.
Lemma line_no_nl l : line_text l -> forall c, In c l -> c <> nl.
Proof.
  intros H c Hc ->. unfold line_text in H. rewrite Forall_forall in H. apply H in Hc. destruct Hc as [Hc _]. apply Hc. reflexivity.
Qed.
Lemma drop_cr_line l : line_text l -> drop_cr l = l.
Proof.
  intros H. unfold drop_cr. destruct (rev l) as [|c r] eqn:E; [reflexivity|].
  assert (Hc : In c l) by (rewrite in_rev, E; left; reflexivity).
  unfold line_text in H. rewrite Forall_forall in H. apply H in Hc. replace (code c =? 13) with false by lia. reflexivity.
Qed.
Definition text_of (ls : list bytes) : bytes := concat (map put_line ls).
Lemma split_text ls : Forall line_text ls -> split_on nl (text_of ls) = ls ++ [[]].
Proof.
  induction 1 as [|l ls H _ IH]; [reflexivity|]. unfold text_of in *. cbn [map concat]. unfold put_line at 1. rewrite <- app_assoc. cbn [app].
  rewrite split_on_cons by (apply line_no_nl, H). rewrite IH. reflexivity.
Qed.
Lemma drop_last_app (ls : list bytes) : drop_last_empty (ls ++ [[]]) = ls.
Proof.
  induction ls as [|l ls IH]; [reflexivity|]. cbn [app drop_last_empty]. rewrite IH.
  destruct l; [|reflexivity]. destruct (ls ++ [[]]) eqn:E; [destruct ls; discriminate|reflexivity].
Qed.
Lemma scan_text ls : Forall line_text ls -> scan_lines (text_of ls) = ls.
Proof.
  intros H. unfold scan_lines. rewrite split_text by exact H. rewrite drop_last_app.
  rewrite <- (map_id ls) at 2. apply map_ext_in. intros l Hl. apply drop_cr_line. rewrite Forall_forall in H. auto.
Qed.
Lemma text_app a b : text_of (a ++ b) = text_of a ++ text_of b.
Proof. unfold text_of. rewrite map_app, concat_app. reflexivity. Qed.
Lemma text_map f (ns : list bytes) : text_of (map f ns) = concat (map (fun n => put_line (f n)) ns).
Proof. unfold text_of. rewrite map_map. reflexivity. Qed.
Lemma text_concat (lls : list (list bytes)) : text_of (concat lls) = concat (map text_of lls).
Proof. induction lls as [|l lls IH]; [reflexivity|]. cbn [concat map]. rewrite text_app, IH. reflexivity. Qed.

(** ** what is written *)
Definition own_lit (a : amount) : literal := fmt_literal (a_int a) (10 ^ Z.of_nat (a_dec a)) (a_dec a).
Lemma own_lit_ok a : lit_ok (own_lit a).
Proof. apply fmt_literal_ok, pow10_pos. Qed.
Lemma own_format e a : amount_ok e a -> format_amount a (a_dec a) = Ok (lit_text (own_lit a)).
Proof. intros (H & _). apply format_ok. exact H. Qed.
Lemma own_parse e a : amount_ok e a -> parse_amount (lit_text (own_lit a)) (a_com a) = Ok a.
Proof.
  intros (H & Hf & _). destruct (format_parse a H) as (s & E1 & E2). rewrite (format_ok a (a_dec a) H) in E1.
  injection E1 as <-. rewrite Hf in E2. exact E2.
Qed.
Lemma own_width e a d : amount_ok e a -> exists w, width a d = Ok w.
Proof.
  intros (H & Hf & _). unfold width. destruct (big_log10 (a_int a)) eqn:E.
  - cbn [bind]. eexists. reflexivity.
  - unfold big_log10 in E. exfalso. revert E. generalize bigPow10s as l, O as i. induction l; cbn; [discriminate|]. intros i. destruct (_ <? _); [discriminate|apply IHl].
  - exfalso. destruct (big_log10_ok (a_int a)) as (x & Ex & _).
    + unfold fits64 in Hf. assert (2 ^ 63 < 10 ^ 50) by reflexivity. lia.
    + congruence.
Qed.
(** which notes go on the line *)
Definition short_of (line : bytes) (ns : list bytes) : option bytes :=
  match ns with
  | n :: _ => if (List.length n + List.length line <? line_max - 3)%nat then Some n else None
  | [] => None
  end.
Definition long_of (line : bytes) (ns : list bytes) : list bytes :=
  match ns with
  | n :: r => if (List.length n + List.length line <? line_max - 3)%nat then r else ns
  | [] => []
  end.
Lemma fit_note_eq line ns : fit_note line ns = (line ++ note_text (short_of line ns), long_of line ns).
Proof.
  unfold fit_note, short_of, long_of. destruct ns as [|n r]; [cbn; rewrite app_nil_r; reflexivity|].
  destruct (_ <? _)%nat; cbn [note_text]; [reflexivity|rewrite app_nil_r; reflexivity].
Qed.
Definition opt_list (o : option bytes) : list bytes := match o with Some n => [n] | None => [] end.
Lemma short_long line ns : ns = opt_list (short_of line ns) ++ long_of line ns.
Proof. unfold short_of, long_of. destruct ns as [|n r]; [reflexivity|]. destruct (_ <? _)%nat; reflexivity. Qed.
Lemma short_note_ok line ns : Forall note_ok ns -> forall n, short_of line ns = Some n -> note_ok n.
Proof. intros H n E. unfold short_of in E. destruct H as [|x r Hx _]; [discriminate|]. destruct (_ <? _)%nat; congruence. Qed.
Lemma long_note_ok line ns : Forall note_ok ns -> Forall note_ok (long_of line ns).
Proof. intros H. rewrite (short_long line ns), Forall_app in H. tauto. Qed.

Definition bal_of (s : posting) : option (literal * bytes) :=
  match ps_balance s with Some b => Some (own_lit b, c_id (a_com b)) | None => None end.
Definition sp2_of (aw mw : nat) (acc : bytes) (l : literal) : bytes :=
  rep " "%char (aw - List.length acc) ++ B "  " ++ rep " "%char (mw - List.length (lit_text l)).
Definition pbase (off aw mw : nat) (s : posting) (q : amount) : bytes :=
  pline (rep " "%char off) (ps_account s) (sp2_of aw mw (ps_account s) (own_lit q)) (own_lit q) (c_id (a_com q)) (bal_of s) None.
Definition posting_lines (off aw mw : nat) (s : posting) (q : amount) : list bytes :=
  let base := pbase off aw mw s q in
  (pline (rep " "%char off) (ps_account s) (sp2_of aw mw (ps_account s) (own_lit q)) (own_lit q) (c_id (a_com q)) (bal_of s)
     (short_of base (ps_notes s)))
  :: map (fun n => B "    ; " ++ n) (long_of base (ps_notes s)).
Lemma write_posting_lines e off aw mw s q : posting_ok e s -> ps_quantity s = Some q ->
  write_posting off aw mw s = Ok (text_of (posting_lines off aw mw s q)).
Proof.
  intros (_ & (q' & Eq & Hq) & Hb & _) E. assert (q' = q) by congruence. subst q'. clear Eq.
  unfold write_posting. rewrite E, (own_format e q Hq). cbn [bind].
  match goal with |- context [rep " "%char off ++ ?r] => set (line := rep " "%char off ++ r) end.
  assert (EL : line ++ bal_text (bal_of s) = pbase off aw mw s q).
  { unfold line, pbase, pline, sp2_of, pad_right, pad_left. cbn [note_text]. rewrite app_nil_r, <- !app_assoc. reflexivity. }
  assert (EB : (match ps_balance s with
                 | None => Ok line
                 | Some b => do bs <- format_amount b (a_dec b); Ok (line ++ B " = " ++ bs ++ B " " ++ c_id (a_com b))
                 end) = Ok (pbase off aw mw s q)).
  { rewrite <- EL. unfold bal_of. destruct (ps_balance s) as [b|] eqn:EB.
    - rewrite (own_format e b (Hb _ eq_refl)). cbn [bind bal_text]. reflexivity.
    - cbn [bal_text]. rewrite app_nil_r. reflexivity. }
  rewrite EB. cbn [bind]. rewrite fit_note_eq. unfold posting_lines. unfold text_of at 1. cbn [map concat].
  f_equal. f_equal.
  - unfold put_line. f_equal. unfold pbase at 1, pline. cbn [note_text]. rewrite app_nil_r, <- !app_assoc. reflexivity.
  - rewrite <- text_map. reflexivity.
Qed.

Definition hbase (t : transaction) : bytes := hline (t_posted t) (t_code t) (t_desc t) None.
Definition head_lines (t : transaction) : list bytes :=
  hline (t_posted t) (t_code t) (t_desc t) (short_of (hbase t) (t_notes t))
  :: map (fun n => B "  ; " ++ n) (long_of (hbase t) (t_notes t)).
Definition qty (s : posting) : amount := match ps_quantity s with Some q => q | None => mkAmount 0 (mkCommodity 0 [] 0) end.
Lemma qty_ok e s : posting_ok e s -> ps_quantity s = Some (qty s) /\ amount_ok e (qty s).
Proof. intros (_ & (q & E & H) & _). unfold qty. rewrite E. auto. Qed.
Lemma res_map_ok {A C} (f : A -> res C) (g : A -> C) l : Forall (fun x => f x = Ok (g x)) l -> res_map f l = Ok (map g l).
Proof. induction 1 as [|x l H _ IH]; [reflexivity|]. cbn [res_map]. rewrite H, IH. reflexivity. Qed.
Lemma res_map_some {A C} (f : A -> res C) l : Forall (fun x => exists y, f x = Ok y) l -> exists ys, res_map f l = Ok ys.
Proof. induction 1 as [|x l (y & H) _ (ys & IH)]; [eexists; reflexivity|]. cbn [res_map]. rewrite H, IH. eexists. reflexivity. Qed.
(** ** reading a posting block *)
Lemma trim_left_note n : note_ok n -> trim_left n = n.
Proof.
  intros (Hn & _ & Hs). destruct n as [|c n]; [congruence|]. cbn in Hs |- *. rewrite space_or_tab_blank in Hs. apply not_true_is_false in Hs. rewrite Hs. reflexivity.
Qed.
Definition add_notes (s : posting) (ns : list bytes) : posting := mkPosting (ps_account s) (ps_quantity s) (ps_balance s) (ps_notes s ++ ns).
Lemma add_last_app ps s ns : add_last_notes (ps ++ [s]) ns = Ok (ps ++ [add_notes s ns]).
Proof. unfold add_last_notes. rewrite rev_app_distr. cbn [rev app]. rewrite rev_involutive. reflexivity. Qed.
Lemma add_notes_nil s : add_notes s [] = s.
Proof. unfold add_notes. rewrite app_nil_r. destruct s; reflexivity. Qed.

Lemma tx_loop_notes e sp ns : sp <> [] -> forallb is_space sp = true -> Forall note_ok ns ->
  forall rest nr tn ps pend,
  tx_loop e (map (fun n => sp ++ B "; " ++ n) ns ++ rest) nr tn ps pend = tx_loop e rest (nr + List.length ns) tn ps (pend ++ ns).
Proof.
  intros Hs1 Hs2 H. induction H as [|n ns (Hn & Hl & _) _ IH]; intros rest nr tn ps pend.
  - cbn [map app List.length]. rewrite app_nil_r, Nat.add_0_r. reflexivity.
  - cbn [map app tx_loop]. rewrite (search_nline sp n Hs1 Hs2 Hl).
    change (cap "note" [("note"%string, n)]) with n. destruct n as [|c n]; [congruence|].
    rewrite IH. rewrite <- app_assoc. cbn [app List.length]. f_equal. lia.
Qed.

Definition flush (tn : list bytes) (ps : list posting) (pend : list bytes) : res (list bytes * list posting) :=
  match pend, ps with
  | [], _ => Ok (tn, ps)
  | _, [] => Ok (tn ++ pend, ps)
  | _, _ => do ps' <- add_last_notes ps pend; Ok (tn, ps')
  end.
Ltac pcaps_tac := unfold pcaps; match goal with |- context [note_caps ?n ++ bal_caps ?b ++ _] => destruct n, b as [[? ?]|] end;
  cbn [note_caps bal_caps]; unfold lit_caps; repeat match goal with |- context [l_frac ?x] => destruct (l_frac x) end; reflexivity.
Lemma cap_note_pcaps acc l i bal nt : cap "note" (pcaps acc l i bal nt) = [].
Proof. pcaps_tac. Qed.
Lemma cap_account_pcaps acc l i bal nt : cap "account" (pcaps acc l i bal nt) = acc.
Proof. pcaps_tac. Qed.
Lemma cap_amount1_pcaps acc l i bal nt : cap "amount1" (pcaps acc l i bal nt) = lit_text l.
Proof. pcaps_tac. Qed.
Lemma cap_commodity1_pcaps acc l i bal nt : cap "commodity1" (pcaps acc l i bal nt) = i.
Proof. pcaps_tac. Qed.
Lemma cap_amount2_pcaps acc l i bal nt : cap "amount2" (pcaps acc l i bal nt) = match bal with Some (l, _) => lit_text l | None => [] end.
Proof. pcaps_tac. Qed.
Lemma cap_commodity2_pcaps acc l i bal nt : cap "commodity2" (pcaps acc l i bal nt) = match bal with Some (_, i) => i | None => [] end.
Proof. pcaps_tac. Qed.
Lemma cap_short_pcaps acc l i bal nt : cap "shortNote" (pcaps acc l i bal nt) = match nt with Some n => n | None => [] end.
Proof. pcaps_tac. Qed.
Lemma lit_nonempty l : lit_ok l -> exists c r, lit_text l = c :: r.
Proof. intros H. assert (Hh := lit_head l H). destruct (lit_text l); [contradiction|eauto]. Qed.
Lemma short_note_caps cs o : cap "shortNote" cs = (match o with Some n => n | None => [] end) ->
  (forall n, o = Some n -> note_ok n) -> short_note cs = opt_list o.
Proof.
  intros E H. unfold short_note. rewrite E. destruct o as [n|]; [|reflexivity].
  specialize (H n eq_refl). rewrite (trim_left_note _ H). destruct H as (Hn & _). destruct n; [congruence|reflexivity].
Qed.

Lemma tx_loop_posting e off aw mw s : posting_ok e s -> off <> O ->
  forall rest nr tn ps pend tn' ps', flush tn ps pend = Ok (tn', ps') ->
  exists nts pend', ps_notes s = nts ++ pend' /\
  tx_loop e (posting_lines off aw mw s (qty s) ++ rest) nr tn ps pend =
  tx_loop e rest (nr + List.length (posting_lines off aw mw s (qty s))) tn' (ps' ++ [mkPosting (ps_account s) (ps_quantity s) (ps_balance s) nts]) pend'.
Proof.
  intros Hs Hoff rest nr tn ps pend tn' ps' HF. destruct (qty_ok e s Hs) as [Eq Hq]. destruct Hs as (Ha & _ & Hb & Hn).
  set (q := qty s) in *. unfold posting_lines. set (base := pbase off aw mw s q). set (o := short_of base (ps_notes s)).
  exists (opt_list o), (long_of base (ps_notes s)). split; [apply short_long|].
  assert (Ho : forall n, o = Some n -> note_ok n) by (apply short_note_ok, Hn).
  cbn [app tx_loop]. rewrite search_pline.
  - rewrite cap_note_pcaps, cap_amount1_pcaps, cap_commodity1_pcaps, cap_amount2_pcaps, cap_commodity2_pcaps, cap_account_pcaps.
    rewrite (short_note_caps _ o); [|apply cap_short_pcaps|exact Ho].
    destruct (lit_nonempty _ (own_lit_ok q)) as (c & r & EL). rewrite EL.
    unfold must_find at 1. rewrite (proj2 (proj2 (proj2 Hq))). cbn [bind]. rewrite <- EL, (own_parse e q Hq). cbn [bind].
    unfold flush in HF. rewrite HF. cbn [bind fst snd].
    assert (EB : match match bal_of s with Some (l, _) => lit_text l | None => [] end with
       | [] => Ok None
       | (_ :: _) as bal => do c0 <- must_find e match bal_of s with Some (_, i) => i | None => [] end; do a <- parse_amount bal c0; Ok (Some a)
       end = Ok (ps_balance s)).
    { unfold bal_of. destruct (ps_balance s) as [b|] eqn:EB; [|reflexivity].
      specialize (Hb b eq_refl). destruct (lit_nonempty _ (own_lit_ok b)) as (c' & r' & EL'). rewrite EL'.
      unfold must_find. rewrite (proj2 (proj2 (proj2 Hb))). cbn [bind]. rewrite <- EL', (own_parse e b Hb). reflexivity. }
    rewrite EB. cbn [bind]. rewrite <- Eq.
    change (fun n : list ascii => B "    ; " ++ n) with (fun n : list ascii => B "    " ++ B "; " ++ n).
    rewrite tx_loop_notes; [|discriminate|reflexivity|apply long_note_ok, Hn].
    cbn [app List.length]. rewrite map_length. f_equal. symmetry. apply Nat.add_succ_r.
  - destruct off; [congruence|discriminate].
  - apply spaces_rep.
  - unfold sp2_of. intros E. apply app_eq_nil in E as [_ E]. discriminate.
  - unfold sp2_of. rewrite !forallb_app, !spaces_rep. reflexivity.
  - exact Ha.
  - apply own_lit_ok.
  - apply Hq.
  - intros l i E. unfold bal_of in E. destruct (ps_balance s) as [b|] eqn:EB; [|discriminate]. injection E as <- <-.
    split; [apply own_lit_ok|]. apply (Hb b eq_refl).
  - intros n E. apply (Ho n E).
Qed.

Definition close_notes (ps : list posting) (pend : list bytes) : res (list posting) :=
  match pend with [] => Ok ps | _ => add_last_notes ps pend end.
(** the parser stops at these lines *)
Definition stops (rest : list bytes) : Prop := match rest with [] => True | l :: _ => rsearch postingREX l = None end.
Lemma tx_loop_stop e rest nr tn ps pend : stops rest -> tx_loop e rest nr tn ps pend = Ok (tn, ps, pend, mkParser rest nr).
Proof. intros H. destruct rest as [|l r]; [reflexivity|]. cbn in H |- *. rewrite H. reflexivity. Qed.
Definition plines (aw mw : nat) (PS : list posting) : list bytes := concat (map (fun s => posting_lines 2 aw mw s (qty s)) PS).
Lemma flush_last tn done s pend : flush tn (done ++ [s]) pend = Ok (tn, done ++ [add_notes s pend]).
Proof.
  unfold flush. destruct pend as [|p pend]; [rewrite add_notes_nil; reflexivity|].
  destruct (done ++ [s]) as [|x l] eqn:E; [destruct done; discriminate|].
  rewrite <- E, add_last_app. reflexivity.
Qed.
Lemma close_last done s pend : close_notes (done ++ [s]) pend = Ok (done ++ [add_notes s pend]).
Proof. unfold close_notes. destruct pend; [rewrite add_notes_nil; reflexivity|apply add_last_app]. Qed.
Lemma tx_loop_postings e aw mw PS : Forall (posting_ok e) PS ->
  forall rest nr tn done s pend, stops rest ->
  exists ps pend', tx_loop e (plines aw mw PS ++ rest) nr tn (done ++ [s]) pend
      = Ok (tn, ps, pend', mkParser rest (nr + List.length (plines aw mw PS))) /\
    close_notes ps pend' = Ok (done ++ [add_notes s pend] ++ PS).
Proof.
  induction 1 as [|p PS Hp _ IH]; intros rest nr tn done s pend Hst.
  - cbn [plines map concat app List.length]. rewrite (tx_loop_stop _ _ _ _ _ _ Hst), Nat.add_0_r. do 2 eexists.
    split; [reflexivity|]. apply close_last.
  - unfold plines in *. cbn [map concat]. rewrite <- app_assoc.
    destruct (tx_loop_posting e 2 aw mw p Hp ltac:(discriminate)
      (concat (map (fun s => posting_lines 2 aw mw s (qty s)) PS) ++ rest) nr tn (done ++ [s]) pend _ _ (flush_last _ _ _ _))
      as (nts & pend1 & En & E). rewrite E.
    destruct (IH rest (nr + List.length (posting_lines 2 aw mw p (qty p)))%nat tn (done ++ [add_notes s pend])
      (mkPosting (ps_account p) (ps_quantity p) (ps_balance p) nts) pend1 Hst) as (ps & pend' & E1 & E2).
    exists ps, pend'. rewrite E1, app_length, Nat.add_assoc. split; [reflexivity|]. rewrite E2. f_equal.
    rewrite <- app_assoc. cbn [app]. do 3 f_equal. unfold add_notes. cbn [ps_account ps_quantity ps_balance ps_notes].
    rewrite <- En. destruct p; reflexivity.
Qed.

(** ** a whole transaction *)
Lemma cap_hcaps_code n c d o : cap "code" (hcaps n c d o) = c.
Proof. unfold hcaps. destruct o, d, c; reflexivity. Qed.
Lemma cap_hcaps_short n c d o : cap "shortNote" (hcaps n c d o) = match o with Some x => x | None => [] end.
Proof. unfold hcaps. destruct o, d, c; reflexivity. Qed.
Lemma cap_hcaps_desc n c d o : (d = [] -> o = None) -> cap "description" (hcaps n c d o) = d ++ dnote_pre o.
Proof. intros H. unfold hcaps. destruct d; [rewrite (H eq_refl); destruct c; reflexivity|]. destruct o, c; reflexivity. Qed.
Lemma blank_is_space : forall c, is_blank_char c = true -> is_space c = true. Proof. all_chars. Qed.
Lemma trim_right_desc d o : desc_text_ok d -> (d = [] -> o = None) -> trim_right (d ++ dnote_pre o) = d.
Proof.
  intros (_ & _ & _ & Hr) H. unfold trim_right.
  assert (E : trim_left (rev d) = rev d).
  { destruct (rev d) as [|c r]; [reflexivity|]. cbn in Hr |- *. destruct (is_blank_char c) eqn:Eb; [|reflexivity].
    apply blank_is_space in Eb. contradiction. }
  destruct o; cbn [dnote_pre]; [rewrite rev_app_distr; change (rev (B " ")) with [" "%char]; cbn [app trim_left]; change (is_blank_char " ") with true; cbn match|
    rewrite app_nil_r]; rewrite E; apply rev_involutive.
Qed.
Lemma parse_header e t : header_ok t ->
  exists rs cs, rsearch transactionREX (hline (t_posted t) (t_code t) (t_desc t) (short_of (hbase t) (t_notes t))) = Some (rs, cs) /\
    must_parse_date (e_today e) cs = Ok (t_posted t) /\ cap "code" cs = t_code t /\ trim_right (cap "description" cs) = t_desc t /\
    short_note cs = opt_list (short_of (hbase t) (t_notes t)).
Proof.
  intros (Hy & Hc & Hd & Hn & Hcl & Hdn). set (o := short_of _ _).
  assert (Ho : forall n, o = Some n -> note_ok n) by (apply short_note_ok, Hn).
  assert (Hdo : t_desc t = [] -> o = None).
  { intros E. apply Hdn in E. unfold o. rewrite E. reflexivity. }
  destruct (search_hline (t_posted t) (t_code t) (t_desc t) o Hy Hc Hd Hcl Hdo) as (rs & E).
  { intros x Ex. apply (Ho x Ex). }
  exists rs, (hcaps (t_posted t) (t_code t) (t_desc t) o). split; [exact E|]. repeat split.
  - unfold must_parse_date. destruct (e_today e) as [[y m] d]. unfold hcaps. rewrite !app_assoc. rewrite parse_written; [reflexivity|exact Hy|].
    intros k Hk. rewrite !Forall_app. assert (G : forall (x : string) (v : bytes), ~ In x ["ymd"; "ymdd"; "ymdm"; "ymdy"; "offset"]%string -> Forall (fun p : string * bytes => k <> fst p) [(x, v)]).
    { intros x v Hx. constructor; [|constructor]. cbn. intros ->. contradiction. }
    split; [split|].
    + destruct o; [apply G|constructor]. cbn. intuition discriminate.
    + destruct (t_desc t); [constructor|apply G]. cbn. intuition discriminate.
    + destruct (t_code t); [constructor|apply G]. cbn. intuition discriminate.
  - apply cap_hcaps_code.
  - rewrite cap_hcaps_desc by exact Hdo. apply trim_right_desc; assumption.
  - apply short_note_caps; [apply cap_hcaps_short|exact Ho].
Qed.
Definition tx_lines (aw mw : nat) (t : transaction) : list bytes := head_lines t ++ plines aw mw (t_postings t).
Lemma parse_tx_lines e aw mw t rest nr : transaction_ok e t -> stops rest ->
  exists l ls, tx_lines aw mw t = l :: ls /\
    parse_transaction e l (ls ++ rest) nr = Ok (at_line nr t, mkParser rest (nr + List.length (tx_lines aw mw t))).
Proof.
  intros (Hh & Hne & Hp) Hst. unfold tx_lines, head_lines. set (o := short_of _ _). set (lg := long_of _ _).
  eexists _, _. split; [cbn [app]; reflexivity|]. unfold parse_transaction.
  destruct (parse_header e t Hh) as (rs & cs & E1 & E2 & E3 & E4 & E5). fold o in E1, E5. rewrite E1, E2. cbn [bind].
  rewrite <- app_assoc. change (fun n : list ascii => B "  ; " ++ n) with (fun n : list ascii => B "  " ++ B "; " ++ n).
  assert (Hn : Forall note_ok lg) by (apply long_note_ok, Hh).
  rewrite tx_loop_notes; [|discriminate|reflexivity|exact Hn]. cbn [app]. rewrite E5.
  destruct (t_postings t) as [|p PS] eqn:EP; [congruence|]. inversion Hp as [|? ? H1 H2]; subst.
  assert (EF : flush (opt_list o) [] lg = Ok (t_notes t, [])).
  { rewrite (short_long (hbase t) (t_notes t)). fold o lg. destruct lg; [rewrite app_nil_r; reflexivity|reflexivity]. }
  unfold plines. cbn [map concat]. rewrite <- app_assoc.
  destruct (tx_loop_posting e 2 aw mw p H1 ltac:(discriminate)
      (concat (map (fun s => posting_lines 2 aw mw s (qty s)) PS) ++ rest) (S nr + List.length lg) (opt_list o) [] lg _ _ EF)
      as (nts & pend1 & En & E). rewrite E.
  destruct (tx_loop_postings e aw mw PS H2 rest (S nr + List.length lg + List.length (posting_lines 2 aw mw p (qty p))) (t_notes t) []
      (mkPosting (ps_account p) (ps_quantity p) (ps_balance p) nts) pend1 Hst) as (ps & pend' & E6 & E7).
  cbn [app] in E6 |- *. unfold plines in E6. rewrite E6. cbn [bind].
  unfold close_notes in E7. rewrite E7. cbn [bind]. rewrite E3, E4. f_equal. f_equal.
  - unfold at_line. f_equal. rewrite EP. cbn [app]. f_equal. unfold add_notes. cbn [ps_account ps_quantity ps_balance ps_notes].
    rewrite <- En. destruct p; reflexivity.
  - f_equal. cbn [List.length]. rewrite !app_length, map_length. fold lg. unfold bytes in *. lia.
Qed.

(** ** a file of transactions *)
Lemma posting_blank : rsearch postingREX [] = None.
Proof. reflexivity. Qed.
Lemma blank_nil : blank [] = true. Proof. reflexivity. Qed.
Lemma digit_dispatch : forall c, is_digit c = true ->
  is_ascii_space c = false /\ existsb (eqc c) (B ";#%|*") = false /\ eqc "i"%char c = false /\ eqc "a"%char c = false /\
  eqc "c"%char c = false /\ eqc "t"%char c = false /\ eqc "P"%char c = false.
Proof.
  intros c H. destruct c as [b0 b1 b2 b3 b4 b5 b6 b7]. destruct b0, b1, b2, b3, b4, b5, b6, b7; revert H; vm_compute; intros H; (discriminate H || (repeat split; reflexivity)).
Qed.
Lemma next_digit e c l rest nr : is_digit c = true ->
  next_lines e ((c :: l) :: rest) nr = (do r <- parse_transaction e (c :: l) rest nr; Ok (Some (ITransaction (fst r), e_default e, snd r))).
Proof.
  intros H. destruct (digit_dispatch c H) as (H1 & H2 & H3 & H4 & H5 & H6 & H7).
  cbn [next_lines]. unfold blank. cbn [forallb]. rewrite H1. cbn [andb]. rewrite H2.
  cbn [B list_ascii_of_string has_prefix]. rewrite H3, H4, H5, H6, H7. cbn [andb]. rewrite H. reflexivity.
Qed.
Lemma date_head n : 0 <= year_of n <= 9999 -> exists c r, format_date n = c :: r /\ is_digit c = true.
Proof.
  intros Hy. destruct (format_date_text n Hy) as (ys & ms & ds & (H1 & L1) & _ & _ & _ & _ & _ & ->).
  destruct ys as [|y ys]; [discriminate|]. cbn [date_text]. unfold ymd_text. cbn [dtext map app].
  do 2 eexists. split; [reflexivity|]. apply digit_char_is_digit. inversion H1; assumption.
Qed.
Lemma next_tx e aw mw t rest nr : transaction_ok e t -> stops rest ->
  next_lines e (tx_lines aw mw t ++ rest) nr =
  Ok (Some (ITransaction (at_line nr t), e_default e, mkParser rest (nr + List.length (tx_lines aw mw t)))).
Proof.
  intros Ht Hst. destruct (parse_tx_lines e aw mw t rest nr Ht Hst) as (l & ls & E & EP). rewrite E. cbn [app].
  assert (Hl : exists c r, l = c :: r /\ is_digit c = true).
  { unfold tx_lines, head_lines in E. cbn [app] in E. injection E as <- _. destruct Ht as ((Hy & _) & _).
    destruct (date_head (t_posted t) ltac:(lia)) as (c & r & Er & Hc). unfold hline. rewrite Er. cbn [app]. eauto. }
  destruct Hl as (c & r & -> & Hc). rewrite next_digit by exact Hc. rewrite EP. cbn [bind fst snd]. rewrite <- E. reflexivity.
Qed.

(** lines of the file: each transaction is followed by an empty line *)
Definition file_lines (f : transaction -> nat * nat) (ts : list transaction) : list bytes :=
  concat (map (fun t => tx_lines (fst (f t)) (snd (f t)) t ++ [[]]) ts).
Lemma tx_lines_pos aw mw t : (0 < List.length (tx_lines aw mw t))%nat.
Proof. unfold tx_lines, head_lines. cbn. lia. Qed.
Lemma next_skip e nr k rest : next_lines e (repeat [] k ++ rest) nr = next_lines e rest (nr + k).
Proof.
  revert nr. induction k; intros nr; cbn [repeat app next_lines]; [rewrite Nat.add_0_r; reflexivity|].
  rewrite blank_nil, IHk. f_equal. lia.
Qed.
Lemma env_eta e : mkEnv (e_find e) (e_default e) (e_today e) = e.
Proof. destruct e; reflexivity. Qed.
Lemma read_file e f ts : Forall (transaction_ok e) ts -> forall fuel nr k, (List.length ts < fuel)%nat ->
  exists ts', read_items fuel e (mkParser (repeat [] k ++ file_lines f ts) nr) = Ok (map ITransaction ts') /\ Forall2 same_transaction ts ts'.
Proof.
  induction 1 as [|t ts Ht _ IH]; intros fuel nr k Hf.
  - destruct fuel as [|fuel]; [cbn in Hf; lia|]. cbn [read_items]. unfold next. cbn [p_lines p_nr file_lines map concat].
    rewrite next_skip. cbn. exists []. split; [reflexivity|constructor].
  - destruct fuel as [|fuel]; [cbn in Hf; lia|]. cbn [read_items]. unfold next. cbn [p_lines p_nr].
    rewrite next_skip. unfold file_lines. cbn [map concat]. rewrite <- !app_assoc.
    rewrite next_tx; [|exact Ht|reflexivity]. cbn [bind]. rewrite env_eta.
    destruct (IH fuel (nr + k + List.length (tx_lines (fst (f t)) (snd (f t)) t))%nat 1%nat) as (ts' & E1 & E2); [cbn in Hf; lia|].
    cbn [repeat app] in E1. unfold file_lines in E1. cbn [app]. unfold bytes in *. rewrite E1. cbn [bind]. eexists (_ :: ts'). split; [reflexivity|].
    constructor; [|exact E2]. reflexivity.
Qed.

(** ** all lines are lines *)
Lemma line_note n : note_ok n -> line_text n. Proof. intros (_ & H & _). exact H. Qed.
Lemma line_note_text o : (forall n, o = Some n -> note_ok n) -> line_text (note_text o).
Proof. intros H. destruct o; [|constructor]. cbn [note_text]. apply line_app; [apply line_lit; reflexivity|apply line_note, H; reflexivity]. Qed.
Lemma line_posting e off aw mw s : posting_ok e s -> Forall line_text (posting_lines off aw mw s (qty s)).
Proof.
  intros Hs. destruct (qty_ok e s Hs) as [_ Hq]. destruct Hs as (Ha & _ & Hb & Hn). unfold posting_lines. constructor.
  - unfold pline. apply line_app; [apply line_rep|]. apply line_app; [apply line_name, Ha|].
    apply line_app; [unfold sp2_of; apply line_app; [apply line_rep|]; apply line_app; [apply line_lit; reflexivity|apply line_rep]|].
    apply line_app; [apply line_app; [apply line_literal, own_lit_ok|]; apply line_app; [apply line_lit; reflexivity|apply line_id, Hq]|].
    apply line_app.
    + unfold bal_of. destruct (ps_balance s) as [b|] eqn:E; [|constructor]. cbn [bal_text].
      apply line_app; [apply line_lit; reflexivity|]. apply line_app; [apply line_literal, own_lit_ok|].
      apply line_app; [apply line_lit; reflexivity|apply line_id, (Hb b eq_refl)].
    + apply line_note_text, short_note_ok, Hn.
  - apply Forall_map. eapply Forall_impl; [|apply long_note_ok, Hn]. intros n H.
    apply line_app; [apply line_lit; reflexivity|apply line_note, H].
Qed.
Lemma line_head t : header_ok t -> Forall line_text (head_lines t).
Proof.
  intros (Hy & Hc & Hd & Hn & _). unfold head_lines. constructor.
  - unfold hline. apply line_app; [apply line_date; lia|]. apply line_app; [apply line_lit; reflexivity|].
    apply line_app; [|apply line_app; [apply Hd|apply line_note_text, short_note_ok, Hn]].
    destruct (t_code t) as [|c r] eqn:E; [constructor|]. rewrite <- E in *.
    apply line_app; [apply line_lit; reflexivity|]. apply line_app; [|apply line_lit; reflexivity].
    eapply line_of; [apply word_lchar|exact Hc].
  - apply Forall_map. eapply Forall_impl; [|apply long_note_ok, Hn]. intros n H.
    apply line_app; [apply line_lit; reflexivity|apply line_note, H].
Qed.
Lemma line_file e f ts : Forall (transaction_ok e) ts -> Forall line_text (file_lines f ts).
Proof.
  induction 1 as [|t ts (Hh & _ & Hp) _ IH]; [constructor|]. unfold file_lines. cbn [map concat]. apply Forall_app. split; [|exact IH].
  apply Forall_app. split; [|repeat constructor]. unfold tx_lines. apply Forall_app. split; [apply line_head, Hh|].
  unfold plines. apply Forall_concat, Forall_map. eapply Forall_impl; [|exact Hp]. intros s Hs. apply (line_posting e), Hs.
Qed.
(** one transaction, with the widths the writer chooses *)
Lemma write_file_one e acc_dec t : transaction_ok e t -> exists aw mw, write_transaction acc_dec t = Ok (text_of (tx_lines aw mw t)).
Proof.
  intros (Hh & Hne & Hp). unfold write_transaction. rewrite fit_note_eq.
  destruct (res_map_some (fun s => match ps_quantity s with None => Panic | Some q => width q (acc_dec (ps_account s)) end) (t_postings t)) as (ws & EW).
  { eapply Forall_impl; [|exact Hp]. intros s Hs. destruct (qty_ok e s Hs) as [E H]. rewrite E. apply (own_width e), H. }
  rewrite EW. cbn [bind]. set (mw := list_max_nat ws). set (aw := list_max_nat _). exists aw, mw.
  rewrite (res_map_ok _ (fun s => text_of (posting_lines 2 aw mw s (qty s)))).
  2:{ eapply Forall_impl; [|exact Hp]. intros s Hs. apply (write_posting_lines e); [exact Hs|apply (qty_ok e s Hs)]. }
  cbn [bind]. f_equal. unfold tx_lines, plines. rewrite text_app, text_concat, map_map. f_equal.
  unfold head_lines. unfold text_of. cbn [map concat]. rewrite map_map.
  assert (E : format_date (t_posted t) ++ B " " ++ match t_code t with [] => [] | c => B "(" ++ c ++ B ") " end ++ t_desc t = hbase t).
  { unfold hbase, hline. cbn [note_text]. rewrite app_nil_r. destruct (t_code t); reflexivity. }
  rewrite E. f_equal. unfold put_line. f_equal. unfold hbase at 1, hline. cbn [note_text]. rewrite app_nil_r.
  rewrite <- !app_assoc. reflexivity.
Qed.
Lemma write_file e acc_dec ts : Forall (transaction_ok e) ts ->
  exists ls, write_transactions acc_dec ts = Ok (text_of ls) /\ Forall line_text ls /\
    (forall fuel nr, (List.length ts < fuel)%nat ->
       exists ts', read_items fuel e (mkParser ls nr) = Ok (map ITransaction ts') /\ Forall2 same_transaction ts ts') /\
    (List.length ts <= List.length ls)%nat.
Proof.
  intros H.
  assert (EX : exists f, forall t, In t ts -> write_transaction acc_dec t = Ok (text_of (tx_lines (fst (f t)) (snd (f t)) t))).
  { exists (fun t => (list_max_nat (map (fun s => List.length (ps_account s)) (t_postings t)),
       match res_map (fun s => match ps_quantity s with None => Panic | Some q => width q (acc_dec (ps_account s)) end) (t_postings t) with Ok ws => list_max_nat ws | _ => O end)).
    intros t Ht. rewrite Forall_forall in H. specialize (H t Ht). cbn [fst snd].
    (* the widths chosen by the writer *)
    destruct H as (Hh & Hne & Hp). unfold write_transaction. rewrite fit_note_eq.
    destruct (res_map_some (fun s => match ps_quantity s with None => Panic | Some q => width q (acc_dec (ps_account s)) end) (t_postings t)) as (ws & EW).
    { eapply Forall_impl; [|exact Hp]. intros s Hs. destruct (qty_ok e s Hs) as [E H]. rewrite E. apply (own_width e), H. }
    rewrite EW. cbn [bind]. set (mw := list_max_nat ws). set (aw := list_max_nat _).
    rewrite (res_map_ok _ (fun s => text_of (posting_lines 2 aw mw s (qty s)))).
    2:{ eapply Forall_impl; [|exact Hp]. intros s Hs. apply (write_posting_lines e); [exact Hs|apply (qty_ok e s Hs)]. }
    cbn [bind]. f_equal. unfold tx_lines, plines. rewrite text_app, text_concat, map_map. f_equal.
    unfold head_lines. unfold text_of. cbn [map concat]. rewrite map_map.
    assert (E : format_date (t_posted t) ++ B " " ++ match t_code t with [] => [] | c => B "(" ++ c ++ B ") " end ++ t_desc t = hbase t).
    { unfold hbase, hline. cbn [note_text]. rewrite app_nil_r. destruct (t_code t); reflexivity. }
    rewrite E. f_equal. unfold put_line. f_equal. unfold hbase at 1, hline. cbn [note_text]. rewrite app_nil_r.
    rewrite <- !app_assoc. reflexivity. }
  destruct EX as (f & EX). exists (file_lines f ts). split; [|split; [apply (line_file e), H|split]].
  - unfold write_transactions. rewrite (res_map_ok _ (fun t => text_of (tx_lines (fst (f t)) (snd (f t)) t ++ [[]]))).
    + cbn [bind]. unfold file_lines. rewrite text_concat, map_map. reflexivity.
    + apply Forall_forall. intros t Ht. rewrite (EX t Ht). cbn [bind]. rewrite text_app. reflexivity.
  - intros fuel nr Hf. apply (read_file e f ts H fuel nr 0). exact Hf.
  - unfold file_lines. clear. induction ts as [|t ts IH]; [apply Nat.le_0_l|]. cbn [map concat]. rewrite !app_length.
    assert (P := tx_lines_pos (fst (f t)) (snd (f t)) t). cbn [List.length] in *. unfold bytes in *. lia.
Qed.
Lemma write_read e acc_dec ts : Forall (transaction_ok e) ts ->
  exists text ts', write_transactions acc_dec ts = Ok text /\ read_text e text = Ok (map ITransaction ts') /\ Forall2 same_transaction ts ts'.
Proof.
  intros H. destruct (write_file e acc_dec ts H) as (ls & E1 & Hl & E2 & Hn).
  destruct (E2 (S (List.length ls)) 1%nat ltac:(lia)) as (ts' & E3 & E4). exists (text_of ls), ts'.
  split; [exact E1|]. split; [|exact E4]. unfold read_text, new_parser. rewrite scan_text by exact Hl. exact E3.
Qed.
