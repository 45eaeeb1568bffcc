(** C132: transactions written by hand are read as they are written, in any layout. *)
From Verif Require Import Base M_Amount M_Regex M_Date M_Parser S_Decimal S_DateText S_Ledger S_Written
  L_Dec L_Regex L_DateText L_Parser M_Writer L_RoundTrip L_Written Properties_Parser.

Theorem C132_read : forall e ts text, file_is e ts text ->
  exists ts', read_text e text = Ok (map ITransaction ts') /\ Forall2 same_transaction ts ts'.
Proof. exact file_read. Qed.
Print Assumptions C132_read.
(** the layout has no influence: two files that write the same transactions are read as the same transactions *)
Theorem C132_layout : forall e ts text text' items items', file_is e ts text -> file_is e ts text' ->
  read_text e text = Ok items -> read_text e text' = Ok items' -> Forall2 same_item items items'.
Proof.
  intros e ts text text' items items' H H' E E'.
  destruct (file_read _ _ _ H) as (l & E1 & F1). destruct (file_read _ _ _ H') as (l' & E2 & F2).
  rewrite E1 in E. rewrite E2 in E'. injection E as <-. injection E' as <-. clear -F1 F2.
  revert l' F2. induction F1 as [|t x ts l Hx _ IH]; intros l' F2; inversion F2 as [|? x' ? l2 Hx' F]; subst; constructor; [|apply IH, F].
  unfold same_item, item_at, same_transaction in *. congruence.
Qed.
Print Assumptions C132_layout.

(** *** a concrete file: tabs, CR LF, two and four digit years, amounts left out, no final line break *)
Definition tab : bytes := [chr 9].
Definition wtext : bytes :=
  B "; my book" ++ [chr 13; chr 10] ++ [chr 10] ++
  B "21/3/4 (a1)  Lunch, two" ++ tab ++ B "; out" ++ [chr 13; chr 10] ++
  B "  ; who" ++ [chr 10] ++
  tab ++ B "Expenses:Food" ++ tab ++ B "12.5  CAD;x" ++ [chr 10] ++
  B "   ;y z" ++ [chr 10] ++
  B "  Assets " ++ [chr 10] ++
  B " " ++ [chr 10] ++
  B "# next" ++ [chr 10] ++
  B "3/5" ++ [chr 10] ++
  B " A  -3 CAD = 4.00 CAD".
Definition wts : list transaction :=
  [mkTransaction (go_date 2021 3 4) (B "a1") (B "Lunch, two") [B "out"; B "who"]
     [mkPosting (B "Expenses:Food") (Some (xcad 1250)) None [B "x"; B "y z"]; mkPosting (B "Assets") None None []] 0;
   mkTransaction (go_date 2020 3 5) [] [] [] [mkPosting (B "A") (Some (xcad (-300))) (Some (xcad 400)) []] 0].
Lemma blanks_dec s : forallb (fun c => eqc c " "%char || eqc c (chr 9)) s = true -> blanks s.
Proof. intros H. apply Forall_forall. intros c Hc. rewrite forallb_forall in H. apply H in Hc. rewrite orb_true_iff in Hc. rewrite !eqc_eq in Hc. exact Hc. Qed.
Lemma gap_dec s : s <> [] -> forallb (fun c => eqc c " "%char || eqc c (chr 9)) s = true -> gap s.
Proof. intros N H. split; [exact N|apply blanks_dec, H]. Qed.
Lemma name_dec segs : segs <> [] -> Forall seg_ok segs -> name_ok (join (B ":") segs).
Proof. intros N H. exists segs. repeat split; auto. Qed.
Lemma seg_dec c r : is_alpha c = true -> forallb name_char r = true -> seg_ok (c :: r).
Proof. intros. exists c, r. auto. Qed.
Lemma note_dec n : n <> [] -> forallb lchar n = true -> match n with c :: _ => space_or_tab c | [] => true end = false -> note_ok n.
Proof. intros N H S. split; [exact N|]. split; [apply line_text_b, H|]. destruct n; cbn; [tauto|congruence]. Qed.
Ltac gp := apply gap_dec; [discriminate|reflexivity].
Ltac bl := apply blanks_dec; reflexivity.
Lemma am l sp i q t : lit_ok l -> gap sp -> id_ok i -> e_find xenv i = Some xCAD -> fits64 (lit_int l) = true -> (List.length (l_frac l) <= 50)%nat ->
  q = mkAmount (Qfloor (lit_value l * pow10Q (c_dec xCAD))) xCAD -> t = lit_text l ++ sp ++ i -> amount_is xenv q t.
Proof. intros H1 H2 H3 H4 H5 H6 -> ->. apply amount_is_intro; auto. vm_compute. lia. Qed.
Lemma digits_dec ds : forallb (fun d => (0 <=? d) && (d <=? 9)) ds = true -> digits_ok ds.
Proof. intros H. apply Forall_forall. intros d Hd. rewrite forallb_forall in H. apply H in Hd. lia. Qed.
Lemma idcad : id_ok (B "CAD"). Proof. exists "C"%char, (B "AD"). repeat split. Qed.
Ltac lit := split; [apply digits_dec; reflexivity|split; [apply digits_dec; reflexivity|discriminate]].
Ltac d12 := split; [apply digits_dec; reflexivity|cbn; lia].

Lemma wtext_1 : transaction_lines xenv (nth 0 wts (mkTransaction 0 [] [] [] [] 0))
  [B "21/3/4 (a1)  Lunch, two" ++ tab ++ B "; out"; B "  ; who"; tab ++ B "Expenses:Food" ++ tab ++ B "12.5  CAD;x"; B "   ;y z"; B "  Assets "].
Proof.
  apply (transaction_lines_intro xenv (go_date 2021 3 4) (B "a1") (B "Lunch, two") [B "out"] (B "21/3/4 (a1)  Lunch, two" ++ tab ++ B "; out") [B "who"] [B "  ; who"]
    [mkPosting (B "Expenses:Food") (Some (xcad 1250)) None [B "x"; B "y z"]; mkPosting (B "Assets") None None []]
    [[tab ++ B "Expenses:Food" ++ tab ++ B "12.5  CAD;x"; B "   ;y z"]; [B "  Assets "]] 0).
  - apply (h_desc xenv (go_date 2021 3 4) (B "21/3/4") (B "a1") (B " (a1)") (B "  ") (B "Lunch, two") [B "out"] (tab ++ B "; out")).
    + apply (date_is_ymd _ [2;1] [3] [4]); [left; split; [apply digits_dec; reflexivity|reflexivity]|d12|d12|vm_compute; reflexivity].
    + apply (code_some (B " ") (B "a1")); [gp|discriminate|reflexivity].
    + gp.
    + discriminate.
    + split; [apply line_text_b; reflexivity|]. split; [cbn; intuition discriminate|]. split; cbn; discriminate.
    + discriminate.
    + apply (tail_note tab (B " ") (B "out")); [bl|bl|apply note_dec; [discriminate|reflexivity|reflexivity]].
  - repeat constructor. apply (nl_space (B "  ") (B "who")); [gp|discriminate|apply line_text_b; reflexivity].
  - discriminate.
  - constructor; [|constructor; [|constructor]].
    + apply (posting_lines_intro xenv (B "Expenses:Food") (Some (xcad 1250)) None [B "x"] _ [B "y z"] [B "   ;y z"]).
      * apply (pl_amount xenv tab (B "Expenses:Food") tab (xcad 1250) (B "12.5  CAD") [B "x"] (B ";x")).
        -- gp.
        -- apply (name_dec [B "Expenses"; B "Food"]); [discriminate|]. repeat constructor; apply seg_dec; reflexivity.
        -- gp.
        -- apply (am (mkLit false [1;2] [5]) (B "  ") (B "CAD")); [lit|gp|exact idcad|reflexivity|reflexivity|cbn; lia|vm_compute; reflexivity|reflexivity].
        -- apply (tail_note [] [] (B "x")); [constructor|constructor|apply note_dec; [discriminate|reflexivity|reflexivity]].
      * repeat constructor. apply (nl_tight (B "   ") (B "y z")); [gp|discriminate|apply line_text_b; reflexivity|cbn; discriminate].
    + apply (posting_lines_intro xenv (B "Assets") None None [] _ [] []); [|constructor].
      apply (pl_bare xenv (B "  ") (B "Assets") [] (B " ")); [gp| |apply tail_none; bl].
      apply (name_dec [B "Assets"]); [discriminate|]. repeat constructor; apply seg_dec; reflexivity.
Qed.
Lemma wtext_2 : transaction_lines xenv (nth 1 wts (mkTransaction 0 [] [] [] [] 0)) [B "3/5"; B " A  -3 CAD = 4.00 CAD"].
Proof.
  apply (transaction_lines_intro xenv (go_date 2020 3 5) [] [] [] (B "3/5") [] [] [mkPosting (B "A") (Some (xcad (-300))) (Some (xcad 400)) []] [[B " A  -3 CAD = 4.00 CAD"]] 0).
  - apply (h_bare xenv (go_date 2020 3 5) (B "3/5") [] [] []); [|constructor|constructor].
    apply (date_is_md _ [3] [5]); [d12|d12|vm_compute; reflexivity].
  - constructor.
  - discriminate.
  - constructor; [|constructor].
    apply (posting_lines_intro xenv (B "A") (Some (xcad (-300))) (Some (xcad 400)) [] _ [] []); [|constructor].
    apply (pl_balance xenv (B " ") (B "A") (B "  ") (xcad (-300)) (B "-3 CAD") (B " ") (B " ") (xcad 400) (B "4.00 CAD") [] []).
    + gp.
    + apply (name_dec [B "A"]); [discriminate|]. repeat constructor; apply seg_dec; reflexivity.
    + gp.
    + apply (am (mkLit true [3] []) (B " ") (B "CAD")); [lit|gp|exact idcad|reflexivity|reflexivity|cbn; lia|vm_compute; reflexivity|reflexivity].
    + gp.
    + gp.
    + apply (am (mkLit false [4] [0;0]) (B " ") (B "CAD")); [lit|gp|exact idcad|reflexivity|reflexivity|cbn; lia|vm_compute; reflexivity|reflexivity].
    + apply tail_none. constructor.
Qed.
Example C132_hypotheses : file_is xenv wts wtext.
Proof.
  apply (file_is_intro xenv [B "; my book"; []] wts
    ([B "21/3/4 (a1)  Lunch, two" ++ tab ++ B "; out"; B "  ; who"; tab ++ B "Expenses:Food" ++ tab ++ B "12.5  CAD;x"; B "   ;y z"; B "  Assets "] ++
     B " " :: [B "# next"] ++ [B "3/5"; B " A  -3 CAD = 4.00 CAD"])).
  - constructor; [right; split; [exists ";"%char, (B " my book"); split; [reflexivity|left; reflexivity]|apply line_text_b; reflexivity]|]. constructor; [left; constructor|constructor].
  - apply (ea_cons xenv (nth 0 wts (mkTransaction 0 [] [] [] [] 0))); [exact wtext_1|bl| |apply ea_last, wtext_2].
    constructor; [|constructor]. right. split; [exists "#"%char, (B " next"); split; [reflexivity|right; left; reflexivity]|apply line_text_b; reflexivity].
  - unfold wtext. cbn [app].
    apply (tl_crlf (B "; my book")), (tl_lf []), (tl_crlf (B "21/3/4 (a1)  Lunch, two" ++ tab ++ B "; out")), (tl_lf (B "  ; who")),
      (tl_lf (tab ++ B "Expenses:Food" ++ tab ++ B "12.5  CAD;x")), (tl_lf (B "   ;y z")), (tl_lf (B "  Assets ")), (tl_lf (B " ")), (tl_lf (B "# next")), (tl_lf (B "3/5")), (tl_last (B " A  -3 CAD = 4.00 CAD")).
    discriminate.
Qed.
Example C132_case : read_text xenv wtext = Ok (map ITransaction (map (fun nt => at_line (fst nt) (snd nt)) (combine [3; 10]%nat wts))).
Proof. vm_compute. reflexivity. Qed.

(** *** what is not written that way is not always refused: parts of a line may be ignored *)
(** every posting line that is accepted says what it is read as *)
Theorem C132_ignored_refuted : ~ (forall e h l t p, parse_transaction e h [l] 1 = Ok (t, p) -> p_lines p = [] ->
  exists s, t_postings t = [s] /\ posting_line e s l).
Proof.
  intros H. destruct (H xenv (B "2020/1/1 x") (B "  A  1,000.00 CAD")
    (mkTransaction (go_date 2020 1 1) [] (B "x") [] [mkPosting (B "A") None None []] 1) (mkParser [] 3)) as (s & E & HL); [vm_compute; reflexivity|reflexivity|].
  injection E as <-. clear H.
  inversion HL as [sp a ns t Hs Ha HT E1 E2| |]; subst.
  destruct sp as [|x1 sp]; [destruct Hs; congruence|]. destruct Hs as [_ Hs]. cbn [app] in E2. injection E2 as -> E2.
  destruct sp as [|x2 sp]; [discriminate|]. cbn [app] in E2. injection E2 as -> E2.
  destruct sp as [|x3 sp]; [|cbn [app] in E2; injection E2 as E0 E2; inversion Hs as [|? ? _ Hs1]; inversion Hs1 as [|? ? _ Hs2]; inversion Hs2 as [|? ? [D|D] _]; rewrite D in E0; discriminate E0].
  cbn [app] in E2. injection E2 as E2. apply (f_equal (fun z => z)) in E2. revert E2. inversion HT as [sp Hsp E3|sp b n Hsp Hb Hn E3|sp b Hsp Hb E3 E4]; subst; intros E2.
  - apply Forall_forall with (x := "1"%char) in Hsp; [destruct Hsp; discriminate|]. rewrite E2. right. right. left. reflexivity.
  - assert (I : In ";"%char (B "  1,000.00 CAD")) by (cbn [B list_ascii_of_string]; rewrite <- E2; apply in_or_app; right; left; reflexivity).
    cbn in I. intuition discriminate.
Qed.
Print Assumptions C132_ignored_refuted.
(** amounts with a thousands separator, without commodity, and balances without an amount are dropped without a message *)
Example C132_ignored : map (fun l => match parse_transaction xenv (B "2020/1/1 x") [l] 1 with Ok (t, _) => t_postings t | _ => [] end)
    [B "  A  1,000.00 CAD"; B "  A  100"; B "  A = 100 CAD"; B "  A  CAD 100"; B "  A  +5 CAD"] = repeat [mkPosting (B "A") None None []] 5.
Proof. vm_compute. reflexivity. Qed.
