(** C21-C29: reading and writing ledger files. *)
From Coq Require Import Sorted.
From Verif Require Import Base M_Amount M_Regex M_Date M_Parser M_Writer S_Decimal S_Date S_DateText S_Ledger
  L_Dec L_Amount L_Regex L_RegexSound L_Date L_DateText L_Parser L_RoundTrip L_Entries.

(** an environment and entries for the examples *)
Definition xCAD : commodity := mkCommodity 1 (B "CAD") 2.
Definition xenv : env := mkEnv (fun id => if eqb_bytes id (B "CAD") then Some xCAD else None) (B "CAD") (2020, 2, 29).
Definition xcad (i : Z) : amount := mkAmount i xCAD.
Definition nls (l : list string) : bytes := concat (map (fun s => B s ++ [nl]) l).
Definition xtx : transaction := mkTransaction (go_date 2020 2 29) (B "A1") (B "Grocery store (main)") [B "short"; B "#tag: x, ; y"]
  [mkPosting (B "Expenses:Food-1") (Some (xcad 12345)) None [B "first note"; B "a second, longer note"];
   mkPosting (B "Assets:Bank/X_2") (Some (xcad (-12345))) (Some (xcad 99)) []] 0.
Lemma word_name s : seg_ok s -> seg_ok s. Proof. auto. Qed.
Ltac name_tac l := exists l; split; [discriminate|split; [repeat constructor; eexists _, _; repeat split|reflexivity]].
Ltac note_tac := split; [discriminate|split; [apply line_text_b; reflexivity|cbn; discriminate]].
Lemma xcad_ok i : fits64 i = true -> amount_ok xenv (xcad i).
Proof. intros H. split; [cbn; lia|]. split; [exact H|]. split; [|reflexivity]. exists "C"%char, (B "AD"). repeat split. Qed.
Example xtx_ok : transaction_ok xenv xtx.
Proof.
  split; [|split; [discriminate|]].
  - split; [vm_compute; split; discriminate|]. split; [reflexivity|]. split.
    + split; [apply line_text_b; reflexivity|]. split; [|split; cbn; discriminate]. intros H. cbn in H. intuition discriminate.
    + split; [|split; [discriminate|discriminate]]. constructor; [note_tac|]. constructor; [note_tac|constructor].
  - constructor; [|constructor; [|constructor]]; (split; [|split; [eexists; split; [reflexivity|apply xcad_ok; reflexivity]|split]]).
    + name_tac [B "Expenses"; B "Food-1"].
    + discriminate.
    + constructor; [note_tac|]. constructor; [note_tac|constructor].
    + name_tac [B "Assets"; B "Bank/X_2"].
    + intros b E. injection E as <-. apply xcad_ok. reflexivity.
    + constructor.
Qed.

(** ** C21 a written ledger reads back as the same ledger *)
(** transactions only, as written by format, modify and the importers *)
Theorem C21_transactions_round_trip : forall e acc_dec ts, Forall (transaction_ok e) ts ->
  exists text ts', write_transactions acc_dec ts = Ok text /\
    read_text e text = Ok (map ITransaction ts') /\ Forall2 same_transaction ts ts'.
Proof. exact write_read. Qed.
Print Assumptions C21_transactions_round_trip.
(** any mixture of transactions, prices, account and commodity definitions, in any order *)
Theorem C21_ledger_round_trip : forall e acc_dec is_, Forall (item_ok e) is_ ->
  exists text js, write_items acc_dec is_ = Ok text /\ read_text e text = Ok js /\ Forall2 same_item is_ js.
Proof. exact write_read_items. Qed.
Print Assumptions C21_ledger_round_trip.
Example C21_example : Forall (transaction_ok xenv) [xtx; xtx] /\
  write_transactions (fun _ => 2%nat) [xtx] = Ok (nls [
    "2020/02/29 (A1) Grocery store (main) ; short";
    "  ; #tag: x, ; y";
    "  Expenses:Food-1   123.45 CAD ; first note";
    "    ; a second, longer note";
    "  Assets:Bank/X_2  -123.45 CAD = 0.99 CAD";
    ""]%string).
Proof. split; [constructor; [exact xtx_ok|constructor; [exact xtx_ok|constructor]]|vm_compute; reflexivity]. Qed.
(** the int64 guard in [amount_ok] is needed: a quantity without decimals is read as more minor units than can be read again *)
Theorem C21_large_amount_refuted : ~ (forall e text ts acc_dec, read_text e text = Ok (map ITransaction ts) ->
  exists text1 ts1, write_transactions acc_dec ts = Ok text1 /\ read_text e text1 = Ok (map ITransaction ts1)).
Proof.
  intros H.
  set (text := nls ["2020/01/01 x"; "  A  9223372036854775807 CAD"]%string).
  set (big := xcad 922337203685477580700).
  destruct (H xenv text [mkTransaction (go_date 2020 1 1) [] (B "x") [] [mkPosting (B "A") (Some big) None []] 1] (fun _ => 2%nat)) as (t1 & ts1 & E1 & E2).
  - vm_compute. reflexivity.
  - vm_compute in E1. injection E1 as <-. vm_compute in E2. discriminate.
Qed.
Print Assumptions C21_large_amount_refuted.

(** ** C22 formatting is idempotent *)
Theorem C22_format_idempotent_partial : forall e acc_dec text text1 items,
  read_text e text = Ok items -> Forall (transaction_ok e) (transactions_of items) ->
  format_text e acc_dec text = Ok text1 -> format_text e acc_dec text1 = Ok text1.
Proof.
  intros e acc_dec text text1 items HR HOK HF. unfold format_text in HF. rewrite HR in HF. cbn [bind] in HF.
  destruct (write_read e acc_dec _ HOK) as (text' & ts' & E1 & E2 & E3). assert (text' = text1) by congruence. subst text'.
  unfold format_text. rewrite E2. cbn [bind]. rewrite transactions_of_map, <- (same_writes acc_dec _ _ E3). exact E1.
Qed.
Print Assumptions C22_format_idempotent_partial.
Example C22_example : exists items, read_text xenv (nls ["; comment"; "2020/2/29 (A1)  Grocery store ; short"; "  Expenses:Food 1 CAD;n"; "  Assets:Bank -1 CAD"]%string) = Ok items
  /\ Forall (transaction_ok xenv) (transactions_of items) /\ List.length (transactions_of items) = 1%nat.
Proof.
  eexists. split; [vm_compute; reflexivity|]. split; [|reflexivity]. constructor; [|constructor].
  split; [|split; [discriminate|]].
  - split; [vm_compute; split; discriminate|]. split; [reflexivity|]. split.
    + split; [apply line_text_b; reflexivity|]. split; [|split; cbn; discriminate]. intros H. cbn in H. intuition discriminate.
    + split; [|split; discriminate]. constructor; [note_tac|constructor].
  - constructor; [|constructor; [|constructor]]; (split; [|split; [eexists; split; [reflexivity|apply xcad_ok; reflexivity]|split]]).
    + name_tac [B "Expenses"; B "Food"].
    + discriminate.
    + constructor; [note_tac|constructor].
    + name_tac [B "Assets"; B "Bank"].
    + discriminate.
    + constructor.
Qed.
(** a note written with two spaces loses one space in each of two rounds of formatting *)
Theorem C22_format_idempotent_refuted : ~ (forall e acc_dec text text1,
  format_text e acc_dec text = Ok text1 -> format_text e acc_dec text1 = Ok text1).
Proof.
  intros H. set (text := nls ["2020/01/01 x"; "  A  1.00 CAD"; "    ;  note"; "  C  -1.00 CAD"]%string).
  set (text1 := nls ["2020/01/01 x"; "  A   1.00 CAD ;  note"; "  C  -1.00 CAD"; ""]%string).
  assert (E1 : format_text xenv (fun _ => 2%nat) text = Ok text1) by (vm_compute; reflexivity).
  assert (E2 : format_text xenv (fun _ => 2%nat) text1 = Ok (nls ["2020/01/01 x"; "  A   1.00 CAD ; note"; "  C  -1.00 CAD"; ""]%string)) by (vm_compute; reflexivity).
  rewrite (H _ _ _ _ E1) in E2. vm_compute in E2. discriminate.
Qed.
Print Assumptions C22_format_idempotent_refuted.

(** ** C23 header text survives *)
Theorem C23_header_round_trip_partial : forall e acc_dec t, transaction_ok e t ->
  exists text t', write_transactions acc_dec [t] = Ok text /\ read_text e text = Ok [ITransaction t'] /\
    t_posted t' = t_posted t /\ t_code t' = t_code t /\ t_desc t' = t_desc t /\ t_notes t' = t_notes t /\
    map ps_notes (t_postings t') = map ps_notes (t_postings t).
Proof.
  intros e acc_dec t H. destruct (write_read e acc_dec [t]) as (text & ts' & E1 & E2 & E3); [constructor; [exact H|constructor]|].
  inversion E3 as [|? t' ? l Hs Hl]; subst. inversion Hl; subst. exists text, t'. split; [exact E1|]. split; [exact E2|].
  destruct t, t'. unfold same_transaction, at_line in Hs. cbn in Hs. injection Hs as -> -> -> -> ->. cbn. auto 6.
Qed.
Print Assumptions C23_header_round_trip_partial.
(** each condition of [header_ok] on the text is needed: without it the text is read back differently *)
Definition xhead (code desc : bytes) (notes : list bytes) : transaction :=
  mkTransaction (go_date 2020 1 1) code desc notes [mkPosting (B "A") (Some (xcad 100)) None []] 1.
Definition reread (t : transaction) : res (list (bytes * bytes * list bytes)) :=
  do text <- write_transactions (fun _ => 2%nat) [t];
  do items <- read_text xenv text; Ok (map (fun t => (t_code t, t_desc t, t_notes t)) (transactions_of items)).
Theorem C23_header_text_refuted :
  (* no description: the note becomes the description *)
  reread (xhead [] [] [B "one"]) = Ok [([], B "; one", [])] /\
  (* a description that starts like a code *)
  reread (xhead [] (B "(x) y") []) = Ok [(B "x", B "y", [])] /\
  (* a description with a semicolon *)
  reread (xhead [] (B "a;b") []) = Ok [([], B "a", [B "b"])] /\
  (* a note that starts with a space *)
  reread (xhead [] (B "d") [B " n"]) = Ok [([], B "d", [B "n"])].
Proof. repeat split; vm_compute; reflexivity. Qed.
Print Assumptions C23_header_text_refuted.

(** ** C24 note lines *)
(** spaces, ';', at most one space, then a non-empty note *)
Definition note_line (l n : bytes) : Prop :=
  n <> [] /\ line_text n /\ exists sp, sp <> [] /\ forallb is_space sp = true /\
   (l = sp ++ B "; " ++ n \/ (l = sp ++ B ";" ++ n /\ ~ starts_with (fun c => eqc " "%char c) n)).
(** adding such a line anywhere after the header and its posting lines changes nothing but the notes,
    and adds exactly that note; [posting_like] lines are those the transaction goes on with *)
Definition posting_like (l : bytes) : Prop := rsearch postingREX l <> None.
Theorem C24_note_line_partial : forall e header pre l n post nr t p,
  Forall posting_like pre -> note_line l n ->
  parse_transaction e header (pre ++ post) nr = Ok (t, p) -> t_postings t <> [] ->
  exists t' p', parse_transaction e header (pre ++ l :: post) nr = Ok (t', p') /\ p_lines p' = p_lines p /\
    t_posted t' = t_posted t /\ t_code t' = t_code t /\ t_desc t' = t_desc t /\
    map posting_core (t_postings t') = map posting_core (t_postings t) /\
    exists a b, all_notes t = a ++ b /\ all_notes t' = a ++ n :: b.
Proof.
  intros e header pre l n post nr t p Hpre (Hn & Hl & sp & Hs1 & Hs2 & HL) H Hne.
  apply (parse_note_in e header pre l post n nr t p); auto.
  - intros x Hx. rewrite Forall_forall in Hpre. specialize (Hpre x Hx). unfold posting_like in Hpre. unfold is_posting_line.
    destruct (rsearch postingREX x); [eauto|congruence].
  - destruct HL as [->|[-> Hsp]]; [apply search_nline; assumption|]. apply search_nline0; auto.
    destruct n as [|c n]; [congruence|]. cbn in Hsp |- *. apply not_true_is_false, Hsp.
Qed.
Print Assumptions C24_note_line_partial.
Example C24_example : posting_like (B "  Expenses:Food  12.34 CAD") /\ note_line (B "    ;hello") (B "hello") /\ note_line (B "	; ;x") (B ";x") /\
  exists t p, parse_transaction xenv (B "2020/1/1 x") [B "  Expenses:Food  12.34 CAD"; B "  Assets"] 7 = Ok (t, p) /\ t_postings t <> [].
Proof.
  split; [vm_compute; discriminate|]. split; [|split].
  - split; [discriminate|]. split; [apply line_text_b; reflexivity|]. exists (B "    "). split; [discriminate|]. split; [reflexivity|]. right. split; [reflexivity|]. cbn. discriminate.
  - split; [discriminate|]. split; [apply line_text_b; reflexivity|]. exists (B "	"). split; [discriminate|]. split; [reflexivity|]. left. reflexivity.
  - do 2 eexists. split; [vm_compute; reflexivity|]. cbn. discriminate.
Qed.
(** an empty note line makes a posting to the account "", and a transaction with notes but no postings panics *)
Theorem C24_note_line_refuted :
  (exists t p, parse_transaction xenv (B "2020/1/1 x") [B "  A  1.00 CAD"; B "  ;"; B "  C"] 1 = Ok (t, p) /\
     map ps_account (t_postings t) = [B "A"; []; B "C"]) /\
  parse_transaction xenv (B "2020/1/1 x") [B "  ; note"] 1 = Panic.
Proof. split; [do 2 eexists; split; vm_compute; reflexivity|vm_compute; reflexivity]. Qed.
Print Assumptions C24_note_line_refuted.

(** ** C25 where a transaction ends *)
(** a line in which no white space is followed by a letter or ';' (e.g. an empty line) ends the transaction *)
Definition no_word_after_space (l : bytes) : Prop :=
  ~ exists a s c b, l = a ++ s :: c :: b /\ is_space s = true /\ (is_alpha c = true \/ c = ";"%char).
Theorem C25_entry_end_partial : forall e header pre l rest nr t p,
  Forall posting_like pre -> no_word_after_space l ->
  parse_transaction e header (pre ++ l :: rest) nr = Ok (t, p) -> p = mkParser (l :: rest) (nr + 1 + List.length pre).
Proof.
  intros e header pre l rest nr t p Hpre Hl H. unfold parse_transaction in H.
  destruct (rsearch transactionREX header) as [[rs cs]|]; [|discriminate]. unbind H. unbind H. destruct a0 as [[[tn ps] pend] p0].
  unbind H. injection H as <- <-. clear E1 E.
  assert (G : forall pre nr tn0 ps0 pend0, Forall posting_like pre ->
    tx_loop e (pre ++ l :: rest) nr tn0 ps0 pend0 = Ok (tn, ps, pend, p0) -> p0 = mkParser (l :: rest) (nr + List.length pre)).
  { clear -Hl. induction pre as [|x pre IH]; intros nr tn0 ps0 pend0 Hp HT.
    - cbn [app tx_loop] in HT. destruct (rsearch postingREX l) as [y|] eqn:EL; [exfalso; apply Hl, (postingREX_needs _ _ EL)|].
      injection HT as _ _ _ <-. rewrite Nat.add_0_r. reflexivity.
    - inversion Hp as [|? ? Hx Hp']; subst. cbn [app tx_loop] in HT. unfold posting_like in Hx.
      destruct (rsearch postingREX x) as [[rs cs]|]; [|congruence]. cbn [List.length]. rewrite Nat.add_succ_r, <- Nat.add_succ_l.
      destruct (cap "note" cs); [unbind HT; unbind HT; unbind HT; eapply IH; eassumption|eapply IH; eassumption]. }
  rewrite (G _ _ _ _ _ Hpre E0). f_equal. rewrite Nat.add_1_r. reflexivity.
Qed.
Print Assumptions C25_entry_end_partial.
Fixpoint nwas (l : bytes) : bool :=
  match l with
  | s :: ((c :: _) as r) => negb (is_space s && (is_alpha c || eqc ";"%char c)) && nwas r
  | _ => true
  end.
Lemma nwas_ok : forall l, nwas l = true -> no_word_after_space l.
Proof.
  intros l H (a & s & c & b & E & Hs & Hc). revert l H E. induction a as [|x a IH]; intros l H E; subst l.
  - cbn [app nwas] in H. rewrite Hs in H. destruct Hc as [Hc| ->]; [rewrite Hc in H; discriminate|]. cbn in H. discriminate.
  - destruct a as [|y a]; cbn [app nwas] in H; apply andb_prop in H as [_ H]; (eapply IH; [|reflexivity]); exact H.
Qed.
Example C25_example : no_word_after_space [] /\ no_word_after_space (B "    ") /\ no_word_after_space (B "#comment").
Proof. repeat split; apply nwas_ok; reflexivity. Qed.
(** without such a line the next entry's header is swallowed as postings *)
Theorem C25_entry_end_refuted : exists t,
  read_text xenv (nls ["2020/1/1 x"; "  A  1.00 CAD"; "  C  -1.00 CAD"; "account Assets:Bank"]%string) = Ok [ITransaction t] /\
  map ps_account (t_postings t) = [B "A"; B "C"; B "Assets:Bank"].
Proof. eexists. split; vm_compute; reflexivity. Qed.
Print Assumptions C25_entry_end_refuted.

(** ** C26 recorded line numbers *)
Theorem C26_line_numbers : forall e text items, read_text e text = Ok items ->
  Forall (fun i => exists l, line_is text (item_line i) l /\ header_line i l) items /\
  StronglySorted lt (map item_line items).
Proof. exact read_text_lines. Qed.
Print Assumptions C26_line_numbers.
Example C26_example : exists a t, read_text xenv (nls [""; "; c"; "account A"; "  note hello"; ""; "2020/1/1 x"; "  A  1.00 CAD"; "  B"]%string) = Ok [IAccount a; ITransaction t] /\
  pa_line a = 3%nat /\ t_line t = 6%nat.
Proof. do 2 eexists. split; [vm_compute; reflexivity|split; reflexivity]. Qed.

(** ** C27 commodity definitions *)
Theorem C27_commodity_round_trip_partial : forall e c, commodity_ok c -> pc_symbol c = [] ->
  exists c', read_text e (write_commodity c ++ [nl]) = Ok [ICommodity c'] /\
   pc_id c' = pc_id c /\ pc_name c' = pc_name c /\ pc_dec c' = pc_dec c /\ pc_nomarket c' = pc_nomarket c /\ pc_symbol c' = pc_symbol c.
Proof.
  intros e c H Hs. destruct (write_read_items e (fun _ => O) [ICommodity c]) as (text & js & E1 & E2 & E3).
  { constructor; [split; assumption|constructor]. }
  cbn in E1. rewrite app_nil_r in E1. injection E1 as <-. inversion E3 as [|? j ? l Hj Hl]; subst. inversion Hl; subst.
  destruct j; try discriminate. unfold same_item in Hj. cbn in Hj. injection Hj as ? ? ? ? ?. eexists. split; [exact E2|]. auto 6.
Qed.
Print Assumptions C27_commodity_round_trip_partial.
Example C27_example : commodity_ok (mkPCommodity (B "BTC_1") (B "Bit coin") 8 true [] 0).
Proof.
  split; [exists "B"%char, (B "TC_1"); repeat split|]. right. split; [apply line_text_b; reflexivity|reflexivity].
Qed.
(** the symbol is not written *)
Theorem C27_commodity_symbol_refuted : ~ (forall e c, commodity_ok c ->
  exists c', read_text e (write_commodity c ++ [nl]) = Ok [ICommodity c'] /\ pc_symbol c' = pc_symbol c).
Proof.
  intros H. destruct (H xenv (mkPCommodity (B "X") [] 2 false (B "X.TO") 0)) as (c' & E1 & E2).
  - split; [exists "X"%char, []; repeat split|left; reflexivity].
  - vm_compute in E1. injection E1 as <-. discriminate.
Qed.
Print Assumptions C27_commodity_symbol_refuted.

(** ** C28 account definitions *)
Theorem C28_account_round_trip_partial : forall e a, account_ok a ->
  exists a', read_text e (write_account a ++ [nl]) = Ok [IAccount a'] /\
   pa_name a' = pa_name a /\ pa_desc a' = pa_desc a /\ pa_commodity a' = pa_commodity a /\ pa_closed a' = pa_closed a /\
   pa_bankid a' = pa_bankid a /\ pa_acctid a' = pa_acctid a /\ pa_csvid a' = pa_csvid a.
Proof.
  intros e a H. destruct (write_read_items e (fun _ => O) [IAccount a]) as (text & js & E1 & E2 & E3).
  { constructor; [assumption|constructor]. }
  cbn [write_items res_map write_item bind item_sep map concat] in E1. rewrite app_nil_r in E1. injection E1 as <-.
  inversion E3 as [|? j ? l Hj Hl]; subst. inversion Hl; subst.
  destruct j; try discriminate. unfold same_item in Hj. cbn in Hj. injection Hj as ? ? ? ? ? ? ?. eexists. split; [exact E2|]. auto 8.
Qed.
Print Assumptions C28_account_round_trip_partial.
Example C28_example : account_ok (mkPAccount (B "Assets:Bank-1/x") (B "my bank") (B "CAD") (Some (go_date 2019 12 31)) (B "0123") (B "99") (B "abc_1") 0).
Proof.
  split; [name_tac [B "Assets"; B "Bank-1/x"]|]. split; [right; split; [apply line_text_b; reflexivity|split; [reflexivity|cbn; lia]]|].
  split; [exists "C"%char, (B "AD"); repeat split|]. split; [|repeat split].
  intros d E. injection E as <-. vm_compute. split; discriminate.
Qed.
(** a one-letter description cannot be read back: the file does not load *)
Theorem C28_account_description_refuted : read_text xenv (write_account (mkPAccount (B "A") (B "x") (B "CAD") None [] [] [] 0) ++ [nl]) = Fail.
Proof. vm_compute. reflexivity. Qed.
Print Assumptions C28_account_description_refuted.

(** ** C29 prices *)
Theorem C29_price_round_trip : forall e p, price_ok e p ->
  exists text p', write_price p = Ok text /\ read_text e text = Ok [IPrice p'] /\
   pp_time p' = pp_time p /\ pp_commodity p' = pp_commodity p /\ pp_currency p' = pp_currency p /\ pp_value p' = pp_value p.
Proof.
  intros e p H. destruct (write_read_items e (fun _ => O) [IPrice p]) as (text & js & E1 & E2 & E3).
  { constructor; [assumption|constructor]. }
  cbn [write_items res_map write_item bind item_sep map concat] in E1. unfold write_items in E1. cbn [res_map write_item item_sep map concat] in E1.
  destruct (write_price p) as [w| |]; cbn [bind concat] in E1; try discriminate. rewrite !app_nil_r in E1. injection E1 as <-.
  inversion E3 as [|? j ? l Hj Hl]; subst. inversion Hl; subst.
  destruct j as [| | |p'| |]; try discriminate. unfold same_item in Hj. cbn in Hj. injection Hj as ? ? ? ?. exists w, p'. split; [reflexivity|]. split; [exact E2|]. auto.
Qed.
Print Assumptions C29_price_round_trip.
Example C29_example : price_ok xenv (mkPPrice (go_date 2001 1 31) (B "USD") (B "CAD") (xcad 131) 0) /\
  write_price (mkPPrice (go_date 2001 1 31) (B "USD") (B "CAD") (xcad 131) 0) = Ok (nls ["P 2001/01/31 USD 1.31 CAD"]%string).
Proof.
  split; [|vm_compute; reflexivity]. split; [vm_compute; split; discriminate|]. split; [exists "U"%char, (B "SD"); repeat split|].
  split; [apply xcad_ok; reflexivity|reflexivity].
Qed.
