(** C133: a whole database written by hand is read as it is written. *)
From Coq Require Import Sorted Permutation.
From Verif Require Import Base M_Amount M_Regex M_Date M_Parser M_Writer M_Database S_Decimal S_DateText S_Ledger S_Written S_Database S_Whole
  L_Dec L_Regex L_DateText L_Parser L_RoundTrip L_Entries L_Written L_Whole L_Database L_Database2 Properties_Parser Properties_Database Properties_Written.

(** files that say [es] are loaded, if enough files may be open, and the database then holds [es] *)
Theorem C133_read : forall w files es, all_say w [] files es ->
  exists limit0, forall limit, (limit0 <= limit)%nat -> exists d, load_list limit w files empty_db = Some (Ok d) /\ holds d es.
Proof.
  intros w files es H. destruct (says_read w) as (_ & _ & R). destruct (says_named w) as (_ & _ & N).
  apply C76_loads; [apply R, H|eapply N, H].
Qed.
Print Assumptions C133_read.
Theorem C133_database : forall w DB es, all_say w [] (database_files w DB) es ->
  exists limit0, forall limit, (limit0 <= limit)%nat -> exists d, load_files_all limit w DB = Some (Ok d) /\ holds d es.
Proof.
  intros w DB es H. destruct (C133_read w _ es H) as (k & K). exists k. intros limit Hl. rewrite load_files_list. apply K, Hl.
Qed.
Print Assumptions C133_database.
(** and whatever is loaded from such files holds what they say, whatever the limit; files say one thing only *)
Theorem C133_says : forall limit w files es d, all_say w [] files es -> load_list limit w files empty_db = Some (Ok d) -> holds d es.
Proof.
  intros limit w files es d H E. destruct (C76_in_place _ _ _ _ E) as (es' & A & _ & Hd). destruct (says_read w) as (_ & _ & R).
  rewrite (C76_unique w files es es' (R _ _ _ H) A). exact Hd.
Qed.
Print Assumptions C133_says.
Theorem C133_one_meaning : forall w files es es', all_say w [] files es -> all_say w [] files es' -> es = es'.
Proof. intros w files es es' H H'. destruct (says_read w) as (_ & _ & R). eapply C76_unique; apply R; eassumption. Qed.
Print Assumptions C133_one_meaning.

(** *** a concrete database *)
Lemma nls_lines l : text_lines (map B l) (nls l).
Proof. induction l as [|x l IH]; [constructor|]. change (nls (x :: l)) with ((B x ++ [nl]) ++ nls l). rewrite <- app_assoc. apply (tl_lf (B x) (map B l) (nls l)), IH. Qed.
Definition hand : world := small_world
  [(B "commodities.coin", nls ["; what we own"; "commodity  CAD ; dollars"; "   format  1.00 CAD"; "  default"; "commodity XYZ"; "  note  Some fund, a "; "  symbol XYZ.TO";
      "  format 1.0000 XYZ"; "  nomarket ;no"]%string);
   (B "prices.coin", nls ["P 20/1/2  XYZ  -3.5  CAD ; low"]%string);
   (B "accounts.coin", nls ["account  Assets:Bank"; "  commodity XYZ"; "  closed 12/31 "; "  commodity CAD"; "account Expenses ;x"; ""; "# end"]%string);
   (B "transactions.coin", nls ["include more.coin"; "test balance "; "some text"; "  end test "; "include more.coin"]%string);
   (B "more.coin", nls ["3/5"; " Expenses  -3 CAD = 4.00 CAD"]%string)] [].
Definition hand_says : list event :=
  [mkEvent (B "commodities.coin") (ICommodity (mkPCommodity (B "CAD") [] 2 false [] 2)) (B "CAD");
   mkEvent (B "commodities.coin") (ICommodity (mkPCommodity (B "XYZ") (B "Some fund, a ") 4 true (B "XYZ.TO") 5)) (B "CAD");
   mkEvent (B "prices.coin") (IPrice (mkPPrice (go_date 2020 1 2) (B "XYZ") (B "CAD") (mkAmount (-350) (mkCommodity 0 (B "CAD") 2)) 1)) (B "CAD");
   mkEvent (B "accounts.coin") (IAccount (mkPAccount (B "Assets:Bank") [] (B "CAD") (Some (go_date 2019 12 31)) [] [] [] 1)) (B "CAD");
   mkEvent (B "accounts.coin") (IAccount (mkPAccount (B "Expenses") [] (B "CAD") None [] [] [] 5)) (B "CAD");
   mkEvent (B "more.coin") (ITransaction (mkTransaction (go_date 2020 3 5) [] [] []
     [mkPosting (B "Expenses") (Some (mkAmount (-300) (mkCommodity 0 (B "CAD") 2))) (Some (mkAmount 400 (mkCommodity 0 (B "CAD") 2))) []] 1)) (B "CAD");
   mkEvent (B "transactions.coin") (ITest (mkPTest (B "balance ") (B "some text" ++ [chr 10]) 2)) (B "CAD");
   mkEvent (B "more.coin") (ITransaction (mkTransaction (go_date 2020 3 5) [] [] []
     [mkPosting (B "Expenses") (Some (mkAmount (-300) (mkCommodity 0 (B "CAD") 2))) (Some (mkAmount 400 (mkCommodity 0 (B "CAD") 2))) []] 1)) (B "CAD")].
Lemma say_file w before fn l es : w_file w fn = Some (nls l) -> lines_say w before fn 1 (map B l) es -> file_says w before fn es.
Proof. intros H HS. eapply fs_file; [exact H|apply nls_lines|exact HS]. Qed.
Lemma say_entry w before fn n pre i d ls rest es all v : between pre -> entry_is (env_after w before) i d ls -> is_include i = false -> ended i rest ->
  v = mkEvent fn (item_at (n + List.length pre) i) d -> all = pre ++ ls ++ rest ->
  lines_say w (before ++ [v]) fn (n + List.length pre + List.length ls) rest es -> lines_say w before fn n all (v :: es).
Proof. intros HB HE Hi Hd -> -> HS. apply ls_entry; assumption. Qed.
Lemma say_include w before fn n pre path d ls rest files es1 es2 all : between pre -> entry_is (env_after w before) (IInclude path 0) d ls ->
  included w fn path files -> ~ In fn files -> all = pre ++ ls ++ rest -> all_say w before files es1 ->
  lines_say w (before ++ es1) fn (n + List.length pre + List.length ls) rest es2 -> lines_say w before fn n all (es1 ++ es2).
Proof. intros HB HE Hf Hn -> HA HS. eapply ls_include; eassumption. Qed.
Lemma no_trail : trail []. Proof. exists []. apply (tail_none []). constructor. Qed.
Lemma blank_trail s : blanks s -> trail s. Proof. intros H. exists []. apply tail_none, H. Qed.
Lemma note_trail sp b n : blanks sp -> blanks b -> note_ok n -> trail (sp ++ B ";" ++ b ++ n). Proof. intros. exists [n]. apply tail_note; assumption. Qed.
Ltac nt := apply note_dec; [discriminate|reflexivity|reflexivity].
Ltac idd := eexists _, _; split; [reflexivity|split; reflexivity].
Ltac vl := split; [apply line_text_b; reflexivity|reflexivity].
Ltac nm1 := repeat constructor; apply seg_dec; reflexivity.
Lemma price_dec e d dt sp i sp2 l sp3 cur c t z df ls : date_is (e_today e) d dt -> gap sp -> id_ok i -> gap sp2 ->
  lit_ok l -> gap sp3 -> id_ok cur -> e_find e cur = Some c -> fits64 (lit_int l) = true -> (c_dec c <= 50)%nat -> (List.length (l_frac l) <= 50)%nat ->
  trail t -> z = Qfloor (lit_value l * pow10Q (c_dec c)) -> df = e_default e -> ls = B "P " ++ dt ++ sp ++ i ++ sp2 ++ lit_text l ++ sp3 ++ cur ++ t ->
  entry_is e (IPrice (mkPPrice d i cur (mkAmount z c) 0)) df [ls].
Proof. intros. subst. apply ei_price; assumption. Qed.
Lemma account_dec e sp n t ls a df all : gap sp -> name_ok n -> trail t ->
  account_lines (e_today e) (mkPAccount n [] df None [] [] [] 0) ls a -> df = e_default e -> all = (B "account" ++ sp ++ n ++ t) :: ls -> entry_is e (IAccount a) df all.
Proof. intros. subst. apply ei_account; assumption. Qed.
Lemma include_dec e sp path df l : gap sp -> value path -> df = e_default e -> l = B "include" ++ sp ++ path -> entry_is e (IInclude path 0) df [l].
Proof. intros. subst. apply ei_include; assumption. Qed.
Lemma test_dec e sp cmd ls z df r all : blanks sp -> value cmd -> Forall (fun l => line_text l /\ ~ end_line l) ls -> line_text z -> end_line z ->
  df = e_default e -> r = concat (map (fun l => l ++ [chr 10]) ls) -> all = (B "test " ++ sp ++ cmd) :: ls ++ [z] -> entry_is e (ITest (mkPTest cmd r 0)) df all.
Proof. intros. subst. apply ei_test; assumption. Qed.
Lemma hand_more before : known before (B "CAD") = Some (mkCommodity 0 (B "CAD") 2) -> default_after before = B "CAD" ->
  file_says hand before (B "more.coin") [nth 5 hand_says (mkEvent [] (IInclude [] 0) [])].
Proof.
  intros HK HDf. eapply say_file; [reflexivity|].
  set (t := mkTransaction (go_date 2020 3 5) [] [] []
     [mkPosting (B "Expenses") (Some (mkAmount (-300) (mkCommodity 0 (B "CAD") 2))) (Some (mkAmount 400 (mkCommodity 0 (B "CAD") 2))) []] 0).
  assert (AM : forall l z, lit_ok l -> fits64 (lit_int l) = true -> (List.length (l_frac l) <= 50)%nat -> z = Qfloor (lit_value l * pow10Q 2) ->
    amount_is (env_after hand before) (mkAmount z (mkCommodity 0 (B "CAD") 2)) (lit_text l ++ B " " ++ B "CAD")).
  { intros l z H1 H2 H3 ->. apply (amount_is_intro (env_after hand before) l (B " ") (B "CAD") (mkCommodity 0 (B "CAD") 2)); [exact H1|gp|exact idcad|exact HK|exact H2|cbn; lia|exact H3]. }
  eapply (say_entry hand before (B "more.coin") 1 [] (ITransaction t) (e_default (env_after hand before)) [B "3/5"; B " Expenses  -3 CAD = 4.00 CAD"] []).
  - constructor.
  - apply ei_transaction.
    apply (transaction_lines_intro (env_after hand before) (go_date 2020 3 5) [] [] [] (B "3/5") [] [] (t_postings t) [[B " Expenses  -3 CAD = 4.00 CAD"]] 0).
    + apply (h_bare _ (go_date 2020 3 5) (B "3/5") [] [] []); [|constructor|constructor].
      apply (date_is_md _ [3] [5]); [d12|d12|vm_compute; reflexivity].
    + constructor.
    + discriminate.
    + constructor; [|constructor].
      apply (posting_lines_intro _ (B "Expenses") (Some (mkAmount (-300) (mkCommodity 0 (B "CAD") 2))) (Some (mkAmount 400 (mkCommodity 0 (B "CAD") 2))) [] _ [] []); [|constructor].
      apply (pl_balance _ (B " ") (B "Expenses") (B "  ") _ (B "-3 CAD") (B " ") (B " ") _ (B "4.00 CAD") [] []).
      * gp.
      * apply (name_dec [B "Expenses"]); [discriminate|nm1].
      * gp.
      * apply (AM (mkLit true [3] [])); [lit|reflexivity|cbn; lia|vm_compute; reflexivity].
      * gp.
      * gp.
      * apply (AM (mkLit false [4] [0;0])); [lit|reflexivity|cbn; lia|vm_compute; reflexivity].
      * apply tail_none. constructor.
  - reflexivity.
  - exact I.
  - cbn [e_default env_after]. rewrite HDf. reflexivity.
  - reflexivity.
  - apply ls_end. constructor.
Qed.
Example C133_hypotheses : all_say hand [] (database_files hand []) hand_says.
Proof.
  assert (B0 : between []) by constructor.
  replace (database_files hand []) with [B "commodities.coin"; B "prices.coin"; B "accounts.coin"; B "transactions.coin"] by (vm_compute; reflexivity).
  unfold hand_says.
  apply (as_cons hand [] (B "commodities.coin") _ (firstn 2 hand_says) (skipn 2 hand_says)).
  { eapply say_file; [reflexivity|]. cbn [firstn hand_says map].
    eapply (say_entry hand [] (B "commodities.coin") 1 [B "; what we own"] (ICommodity (mkPCommodity (B "CAD") [] 2 false [] 0)) (B "CAD")
      [B "commodity  CAD ; dollars"; B "   format  1.00 CAD"; B "  default"]
      (map B ["commodity XYZ"; "  note  Some fund, a "; "  symbol XYZ.TO"; "  format 1.0000 XYZ"; "  nomarket ;no"]%string)).
    - constructor; [|constructor]. right. split; [exists ";"%char, (B " what we own"); split; [reflexivity|left; reflexivity]|apply line_text_b; reflexivity].
    - apply (ei_commodity (env_after hand []) (B " ") (B "CAD") (B " ; dollars")); [bl|idd|apply (note_trail (B " ") (B " ") (B "dollars")); [bl|bl|nt]|].
      eapply cls_cons; [apply (cl_format (B "CAD") [] 2 false [] 0 (B "CAD") (B "   ") (B "  ") (mkLit false [1] [0;0]) (B " ") (B "CAD") []); [gp|gp|lit|gp|idd|exact no_trail]|].
      eapply cls_cons; [apply (cl_default (B "CAD") [] 2 false [] 0 (B "CAD") (B "  ") []); [gp|exact no_trail]|]. constructor.
    - reflexivity.
    - exact I.
    - reflexivity.
    - reflexivity.
    - eapply (say_entry hand _ (B "commodities.coin") 5 [] (ICommodity (mkPCommodity (B "XYZ") (B "Some fund, a ") 4 true (B "XYZ.TO") 0)) (B "CAD")
        (map B ["commodity XYZ"; "  note  Some fund, a "; "  symbol XYZ.TO"; "  format 1.0000 XYZ"; "  nomarket ;no"]%string) []).
      + exact B0.
      + apply (ei_commodity (env_after hand [mkEvent (B "commodities.coin") (ICommodity (mkPCommodity (B "CAD") [] 2 false [] 2)) (B "CAD")]) [] (B "XYZ") []); [constructor|idd|exact no_trail|].
        eapply cls_cons; [apply (cl_note (B "XYZ") [] 2 false [] 0 (B "CAD") (B "  ") (B "  ") (B "Some fund, a ")); [gp|gp|vl]|].
        eapply cls_cons; [apply (cl_symbol (B "XYZ") (B "Some fund, a ") 2 false [] 0 (B "CAD") (B "  ") (B " ") (B "XYZ.TO") []); [gp|gp|discriminate|reflexivity|exact no_trail]|].
        eapply cls_cons; [apply (cl_format (B "XYZ") (B "Some fund, a ") 2 false (B "XYZ.TO") 0 (B "CAD") (B "  ") (B " ") (mkLit false [1] [0;0;0;0]) (B " ") (B "XYZ") []); [gp|gp|lit|gp|idd|exact no_trail]|].
        eapply cls_cons; [apply (cl_nomarket (B "XYZ") (B "Some fund, a ") 4 false (B "XYZ.TO") 0 (B "CAD") (B "  ") (B " ;no")); [gp|apply (note_trail (B " ") [] (B "no")); [bl|bl|nt]]|].
        constructor.
      + reflexivity.
      + exact I.
      + reflexivity.
      + reflexivity.
      + apply ls_end. constructor. }
  apply (as_cons hand _ (B "prices.coin") _ (firstn 1 (skipn 2 hand_says)) (skipn 3 hand_says)).
  { eapply say_file; [reflexivity|]. cbn [firstn skipn hand_says map].
    eapply (say_entry hand _ (B "prices.coin") 1 [] (IPrice (mkPPrice (go_date 2020 1 2) (B "XYZ") (B "CAD") (mkAmount (-350) (mkCommodity 0 (B "CAD") 2)) 0)) (B "CAD")
      [B "P 20/1/2  XYZ  -3.5  CAD ; low"] []).
    - exact B0.
    - apply (price_dec (env_after hand _) (go_date 2020 1 2) (B "20/1/2") (B "  ") (B "XYZ") (B "  ") (mkLit true [3] [5]) (B "  ") (B "CAD") (mkCommodity 0 (B "CAD") 2) (B " ; low")).
      + apply (date_is_ymd _ [2;0] [1] [2]); [left; split; [apply digits_dec; reflexivity|reflexivity]|d12|d12|vm_compute; reflexivity].
      + gp.
      + idd.
      + gp.
      + lit.
      + gp.
      + idd.
      + vm_compute. reflexivity.
      + reflexivity.
      + cbn. lia.
      + cbn. lia.
      + apply (note_trail (B " ") (B " ") (B "low")); [bl|bl|nt].
      + vm_compute. reflexivity.
      + reflexivity.
      + reflexivity.
    - reflexivity.
    - exact I.
    - reflexivity.
    - reflexivity.
    - apply ls_end. constructor. }
  apply (as_cons hand _ (B "accounts.coin") _ (firstn 2 (skipn 3 hand_says)) (skipn 5 hand_says)).
  { eapply say_file; [reflexivity|]. cbn [firstn skipn hand_says map].
    eapply (say_entry hand _ (B "accounts.coin") 1 [] (IAccount (mkPAccount (B "Assets:Bank") [] (B "CAD") (Some (go_date 2019 12 31)) [] [] [] 0)) (B "CAD")
      (map B ["account  Assets:Bank"; "  commodity XYZ"; "  closed 12/31 "; "  commodity CAD"]%string) (map B ["account Expenses ;x"; ""; "# end"]%string)).
    - exact B0.
    - eapply (account_dec (env_after hand _) (B "  ") (B "Assets:Bank") []); [gp|apply (name_dec [B "Assets"; B "Bank"]); [discriminate|nm1]|exact no_trail| |reflexivity|reflexivity].
      eapply als_cons; [apply (al_commodity _ (B "Assets:Bank") [] (B "CAD") None [] [] [] 0 (B "  ") (B " ") (B "XYZ") []); [gp|gp|idd|exact no_trail]|].
      eapply als_cons; [apply (al_closed _ (B "Assets:Bank") [] (B "XYZ") None [] [] [] 0 (B "  ") (B " ") (go_date 2019 12 31) (B "12/31") (B " ")); [gp|gp| |apply blank_trail; bl]|].
      { apply (date_is_md _ [1;2] [3;1]); [d12|d12|vm_compute; reflexivity]. }
      eapply als_cons; [apply (al_commodity _ (B "Assets:Bank") [] (B "XYZ") (Some (go_date 2019 12 31)) [] [] [] 0 (B "  ") (B " ") (B "CAD") []); [gp|gp|idd|exact no_trail]|].
      constructor.
    - reflexivity.
    - exact I.
    - reflexivity.
    - reflexivity.
    - eapply (say_entry hand _ (B "accounts.coin") 5 [] (IAccount (mkPAccount (B "Expenses") [] (B "CAD") None [] [] [] 0)) (B "CAD") [B "account Expenses ;x"] (map B [""; "# end"]%string)).
      + exact B0.
      + eapply (account_dec (env_after hand _) (B " ") (B "Expenses") (B " ;x")); [gp|apply (name_dec [B "Expenses"]); [discriminate|nm1]|apply (note_trail (B " ") [] (B "x")); [bl|bl|nt]|constructor|reflexivity|reflexivity].
      + reflexivity.
      + exact I.
      + reflexivity.
      + reflexivity.
      + apply ls_end. constructor; [left; constructor|]. constructor; [|constructor]. right. split; [exists "#"%char, (B " end"); split; [reflexivity|right; left; reflexivity]|apply line_text_b; reflexivity]. }
  change (skipn 5 hand_says) with (skipn 5 hand_says ++ []). apply as_cons; [|constructor].
  eapply say_file; [reflexivity|]. cbn [firstn skipn hand_says map app].
  apply (say_include hand _ (B "transactions.coin") 1 [] (B "more.coin") (B "CAD") [B "include more.coin"] (map B ["test balance "; "some text"; "  end test "; "include more.coin"]%string)
    [B "more.coin"] (firstn 1 (skipn 5 hand_says)) (skipn 6 hand_says)).
  - exact B0.
  - apply (include_dec (env_after hand _) (B " ") (B "more.coin")); [gp|vl|reflexivity|reflexivity].
  - vm_compute. reflexivity.
  - cbn. intuition discriminate.
  - reflexivity.
  - change (firstn 1 (skipn 5 hand_says)) with ([nth 5 hand_says (mkEvent [] (IInclude [] 0) [])] ++ []). apply as_cons; [|constructor].
    apply hand_more; vm_compute; reflexivity.
  - cbn [firstn skipn hand_says].
    eapply (say_entry hand _ (B "transactions.coin") 2 [] (ITest (mkPTest (B "balance ") (B "some text" ++ [chr 10]) 0)) (B "CAD")
      (map B ["test balance "; "some text"; "  end test "]%string) [B "include more.coin"]).
    + exact B0.
    + apply (test_dec (env_after hand _) [] (B "balance ") [B "some text"] (B "  end test ")).
      * constructor.
      * vl.
      * constructor; [|constructor]. split; [apply line_text_b; reflexivity|]. rewrite end_trim. vm_compute. discriminate.
      * apply line_text_b. reflexivity.
      * rewrite end_trim. vm_compute. reflexivity.
      * reflexivity.
      * reflexivity.
      * reflexivity.
    + reflexivity.
    + exact I.
    + reflexivity.
    + reflexivity.
    + apply (say_include hand _ (B "transactions.coin") 5 [] (B "more.coin") (B "CAD") [B "include more.coin"] [] [B "more.coin"] (skipn 7 hand_says) []).
      * exact B0.
      * apply (include_dec (env_after hand _) (B " ") (B "more.coin")); [gp|vl|reflexivity|reflexivity].
      * vm_compute. reflexivity.
      * cbn. intuition discriminate.
      * reflexivity.
      * change (skipn 7 hand_says) with ([nth 5 hand_says (mkEvent [] (IInclude [] 0) [])] ++ []). apply as_cons; [|constructor].
        apply hand_more; vm_compute; reflexivity.
      * apply ls_end. constructor.
Qed.
Example C133_case : match load_files_all 3 hand [] with Some (Ok d) => d_txs d = ev_txs hand_says /\ d_prices d = ev_prices hand_says /\ d_tests d = ev_tests hand_says | _ => False end.
Proof. vm_compute. auto. Qed.

(** *** blanks after the path of an include line are part of the path: the file is silently not read *)
Theorem C133_include_blank_refuted : ~ (forall files star fn path sp d d',
  lookup fn files = Some (B "include " ++ path) -> blanks sp ->
  load_list 5 (small_world files star) [fn] empty_db = Some (Ok d) ->
  load_list 5 (small_world (store fn (B "include " ++ path ++ sp) files) star) [fn] empty_db = Some (Ok d') ->
  d_accounts d = d_accounts d').
Proof.
  intros H. specialize (H [(B "m.coin", B "include a.coin"); (B "a.coin", B "account A")] [] (B "m.coin") (B "a.coin") (B " ")
    (match load_list 5 (small_world [(B "m.coin", B "include a.coin"); (B "a.coin", B "account A")] []) [B "m.coin"] empty_db with Some (Ok d) => d | _ => empty_db end)
    (match load_list 5 (small_world [(B "m.coin", B "include a.coin "); (B "a.coin", B "account A")] []) [B "m.coin"] empty_db with Some (Ok d) => d | _ => empty_db end)
    eq_refl ltac:(bl)).
  assert (E := H ltac:(vm_compute; reflexivity) ltac:(vm_compute; reflexivity)). vm_compute in E. discriminate E.
Qed.
Print Assumptions C133_include_blank_refuted.
