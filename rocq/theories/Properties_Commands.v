(** C22, C33, C40, C52, C53, C75: the commands that rewrite transaction files. *)
From Coq Require Import Sorted Permutation.
From Verif Require Import Base M_Amount M_Regex M_Date M_Parser M_Writer M_Names M_Tags M_Ledger M_Commands S_Amount S_Ledger S_Books S_Commands
  L_Dec L_Sort L_Amount L_Registers L_Resolve L_Resolve2 L_Check L_Load L_Move L_RoundTrip L_Entries L_Format L_Words L_Recheck L_Modify
  Properties_Parser Properties_Names.
Local Open Scope Z_scope.

(** a small world for the examples *)
Definition yaccounts : list bytes := [B "Assets:Bank"; B "Expenses:Food"; B "Expenses:Fun"; B "Root"].
Definition yfind : bytes -> res bytes := must_find_account (fun p n => has_prefix p n) yaccounts.
Definition ycomm (a : bytes) : commodity := xCAD.
Definition yconv : conversion := fun _ _ _ => Fail.
Definition yformat (trim : bool) := format_file xenv yfind ycomm yconv yaccounts trim empty_ledger.
Definition ytext : bytes := nls ["2020/03/02 Later"; "  Expenses:Food  20 CAD"; "  Assets:Bank  -20 CAD = 70 CAD"; ""; "; a comment"; "2020/03/01 (A1) First   one ; n1";
  "  Expenses:Food  10.5 CAD"; "  Expenses:Fun  -0.50 CAD"; "  Assets:Bank ; the rest"]%string.

(** the full name of an account stands for that account *)
Lemma must_find_idem compile names : forall n a, must_find_account compile names n = Ok a -> must_find_account compile names a = Ok a.
Proof.
  intros n a H. destruct (C32_account_pattern_partial compile names n) as (_ & K & _). destruct (K a H) as [I _].
  destruct (C32_account_pattern_partial compile names a) as (K' & _). apply K', I.
Qed.

(** ** C33 the transactions that are accepted are those that can be completed *)
Theorem C33_accepted_iff : forall find comm conv accounts L ts, ledger_ok L -> NoDup accounts ->
  (exists L' ws sorted, load_transactions find comm conv accounts false L ts = Ok (L', ws, sorted)) <->
  Forall (fun t => exists t', completed find comm conv t t') ts.
Proof.
  intros find comm conv accounts L ts Hok Na. split.
  - intros (L' & ws & sorted & H). destruct (load_inv _ _ _ _ _ _ _ _ _ _ Hok Na H) as (_ & xs & _ & _ & _ & _ & _ & R & _). clear - R.
    induction R as [|t x ts xs R1 R IH]; constructor; [|exact IH]. exists (as_written L' x). apply resolved_completed, R1.
  - intros H. destruct (load_accepts find comm conv accounts L ts H) as (L' & sorted & E). eauto.
Qed.
Print Assumptions C33_accepted_iff.
(** ... and there is one way to complete a transaction *)
Theorem C33_completion_unique : forall find comm conv t t1 t2, completed find comm conv t t1 -> completed find comm conv t t2 -> same_transaction t1 t2.
Proof. exact completed_unique. Qed.
Print Assumptions C33_completion_unique.

(** ** C52 what format writes *)
(** the transactions of the file, completed and in ledger order; they read back; nothing stays in the registers *)
Theorem C52_format_partial : forall e find comm conv accounts L text items L' out, ledger_ok L -> NoDup accounts ->
  read_text e text = Ok items -> format_file e find comm conv accounts false L text = Ok (L', out) ->
  exists ts1 ts2, Forall2 (completed find comm conv) (transactions_of items) ts1 /\ ordered_version ts1 ts2 /\ Permutation ts1 ts2 /\
    (Forall (transaction_ok e) ts1 ->
       exists ts3, read_text e out = Ok (map ITransaction ts3) /\ Forall2 same_transaction ts2 ts3) /\
    (forall a, reg L' a = reg L a).
Proof.
  intros e find comm conv accounts L text items L' out Hok Na Hr H.
  destruct (format_inv e find comm conv accounts Na false L text L' out items Hok Hr H) as (ts1 & ts2 & A1 & A2 & A3 & A4 & A5 & A6).
  exists ts1, ts2. split; [exact A1|]. split; [exact A2|]. split; [exact A3|]. split; [|exact A5]. intros Ht.
  assert (Ht2 : Forall (transaction_ok e) ts2) by (eapply Permutation_Forall; eassumption).
  cbn in A4. rewrite map_id in A4. destruct (write_read e (fun a => c_dec (comm a)) ts2 Ht2) as (text' & ts3 & E1 & E2 & E3).
  assert (text' = out) by congruence. subst text'. eauto.
Qed.
Print Assumptions C52_format_partial.
(** nothing needs to be in the ledger already, and nothing there matters *)
Theorem C52_format_alone : forall e find comm conv accounts trim L1 L2 text L1' out, ledger_ok L1 -> ledger_ok L2 -> NoDup accounts ->
  format_file e find comm conv accounts trim L1 text = Ok (L1', out) -> exists L2', format_file e find comm conv accounts trim L2 text = Ok (L2', out).
Proof.
  intros e find comm conv accounts trim L1 L2 text L1' out Hok1 Hok2 Na H.
  assert (Hr : exists items, read_text e text = Ok items) by (unfold format_file in H; apply bind_ok in H as (items & E & _); eauto). destruct Hr as (items & Hr).
  destruct (format_inv e find comm conv accounts Na trim L1 text L1' out items Hok1 Hr H) as (ts1 & ts2 & A1 & A2 & A3 & A4 & _).
  eapply format_from; eassumption.
Qed.
Print Assumptions C52_format_alone.
(** several files in one run: each is formatted as if alone *)
Theorem C52_files : forall e find comm conv accounts trim texts L L' outs, ledger_ok L -> NoDup accounts ->
  format_files e find comm conv accounts trim L texts = Ok (L', outs) ->
  Forall2 (fun text out => exists L1, format_file e find comm conv accounts trim empty_ledger text = Ok (L1, out)) texts outs /\
  forall a, reg L' a = reg L a.
Proof.
  intros e find comm conv accounts trim. induction texts as [|text texts IH]; intros L L' outs Hok Na H; cbn [format_files] in H.
  - injection H as <- <-. split; [constructor|reflexivity].
  - apply bind_ok in H as ([L1 out] & E1 & H). apply bind_ok in H as ([L2 outs'] & E2 & H). injection H as <- <-. cbn [fst snd] in *.
    assert (Hr : exists items, read_text e text = Ok items) by (unfold format_file in E1; apply bind_ok in E1 as (items & E & _); eauto). destruct Hr as (items & Hr).
    destruct (format_inv e find comm conv accounts Na trim L text L1 out items Hok Hr E1) as (ts1 & ts2 & _ & _ & _ & _ & A5 & A6).
    destruct (IH L1 L2 outs' A6 Na E2) as [B1 B2]. split.
    + constructor; [|exact B1]. eapply C52_format_alone; [exact Hok|exact empty_ok|exact Na|exact E1].
    + intros a. rewrite B2. apply A5.
Qed.
Print Assumptions C52_files.
Example C52_example : match yformat false ytext with
  | Ok (_, out) => out = nls ["2020/03/01 (A1) First   one ; n1"; "  Expenses:Food   10.50 CAD"; "  Expenses:Fun    -0.50 CAD"; "  Assets:Bank    -10.00 CAD ; the rest"; "";
                              "2020/03/02 Later"; "  Expenses:Food   20.00 CAD"; "  Assets:Bank    -20.00 CAD = 70.00 CAD"; ""]%string
  | _ => False end.
Proof. vm_compute. reflexivity. Qed.
(** entries other than transactions, and comments, are lost *)
Definition ztext : bytes := nls ["account Expenses:Food"; "2020/03/01 x"; "  Expenses:Food  1 CAD"; "  Assets:Bank"]%string.
Definition only_transactions (items : list item) : bool := forallb (fun i => match i with ITransaction _ => true | _ => false end) items.
Definition has_account (items : list item) : bool := match items with IAccount _ :: _ => true | _ => false end.
Lemma ztext_lost : match read_text xenv ztext, format_file xenv yfind ycomm yconv yaccounts false empty_ledger ztext with
  | Ok items, Ok (_, out) => match read_text xenv out with Ok items' => has_account items && only_transactions items' | _ => false end
  | _, _ => false end = true.
Proof. vm_compute. reflexivity. Qed.
Lemma lost_facts text : match read_text xenv text, format_file xenv yfind ycomm yconv yaccounts false empty_ledger text with
  | Ok items, Ok (_, out) => match read_text xenv out with Ok items' => has_account items && only_transactions items' | _ => false end
  | _, _ => false end = true -> exists a items L' out items', read_text xenv text = Ok (IAccount a :: items) /\ format_file xenv yfind ycomm yconv yaccounts false empty_ledger text = Ok (L', out) /\
  read_text xenv out = Ok items' /\ forall j, In j items' -> exists t, j = ITransaction t.
Proof.
  intros E. destruct (read_text xenv text) as [items| |]; try discriminate E. destruct (format_file xenv yfind ycomm yconv yaccounts false empty_ledger text) as [[L' out]| |]; try discriminate E.
  destruct (read_text xenv out) as [items'| |] eqn:E3; try discriminate E. apply andb_prop in E as [E E']. destruct items as [|[| a | | | |] items]; try discriminate E.
  exists a, items, L', out, items'. do 3 (split; [first [reflexivity|exact E3]|]). intros j J. pose proof (proj1 (forallb_forall _ _) E' j J) as K.
  destruct j; try discriminate K. eauto.
Qed.
Theorem C52_entries_kept_refuted : ~ (forall e find comm conv accounts text items L' out items',
  read_text e text = Ok items -> format_file e find comm conv accounts false empty_ledger text = Ok (L', out) -> read_text e out = Ok items' ->
  forall i, In i items -> exists j, In j items' /\ item_at 0 j = item_at 0 i).
Proof.
  intros H. destruct (lost_facts ztext ztext_lost) as (a & items & L' & out & items' & E1 & E2 & E3 & E).
  destruct (H xenv yfind ycomm yconv yaccounts ztext _ L' out items' E1 E2 E3 (IAccount a) (or_introl eq_refl)) as (j & J1 & J2).
  destruct (E j J1) as [t ->]. discriminate J2.
Qed.
Print Assumptions C52_entries_kept_refuted.

(** ** C22 formatting a formatted file changes nothing: the whole command, with and without -t *)
Lemma trim_tx_idem t : trim_tx (trim_tx t) = trim_tx t.
Proof. destruct t as [d c de no po li]. unfold trim_tx. cbn [t_posted t_code t_desc t_notes t_postings t_line]. f_equal; [apply trim_ws_idem|]. rewrite map_map. apply map_ext. intros; apply trim_ws_idem. Qed.
Lemma completed_trim find comm conv t : completed find comm conv t t -> completed find comm conv (trim_tx t) (trim_tx t).
Proof. intros (_ & _ & _ & _ & A). unfold completed. do 4 (split; [reflexivity|]). exact A. Qed.
Lemma ordered_self ts : file_order ts -> ordered_version ts ts.
Proof. intros H. split; [exact H|reflexivity]. Qed.
Lemma order_trim (trim : bool) ts : file_order ts -> file_order (map (fun t => if trim then trim_tx t else t) ts).
Proof.
  unfold file_order. induction 1 as [|t l S IH F]; cbn [map]; constructor; [exact IH|]. apply Forall_forall. intros u Hu. apply in_map_iff in Hu as (w & <- & Hw).
  rewrite Forall_forall in F. specialize (F w Hw). destruct trim; exact F.
Qed.
Theorem C22_format_command_partial : forall e compile names comm conv (trim : bool) L text items L' out,
  let find := must_find_account compile names in ledger_ok L -> NoDup names ->
  read_text e text = Ok items ->
  (forall t t', In t (transactions_of items) -> completed find comm conv t t' -> transaction_ok e (if trim then trim_tx t' else t')) ->
  format_file e find comm conv names trim L text = Ok (L', out) ->
  forall L2, ledger_ok L2 -> exists L2', format_file e find comm conv names trim L2 out = Ok (L2', out).
Proof.
  intros e compile names comm conv trim L text items L' out find Hok Na Hr Ht H L2 Hok2.
  destruct (format_inv e find comm conv names Na trim L text L' out items Hok Hr H) as (ts1 & ts2 & A1 & A2 & A3 & A4 & A5 & A6).
  set (tr := fun t => if trim then trim_tx t else t) in *.
  assert (Cf : forall t, In t ts2 -> completed find comm conv t t /\ transaction_ok e (tr t)).
  { intros t It. apply (Permutation_in _ (Permutation_sym A3)) in It. clear - A1 It Ht. induction A1 as [|u u' us us' C _ IH]; [destruct It|].
    destruct It as [<-|It].
    - split; [eapply completed_self; [apply must_find_idem|exact C]|]. apply (Ht u); [left; reflexivity|exact C].
    - apply IH; [|exact It]. intros; eapply Ht; [right|]; eassumption. }
  assert (Ok2 : Forall (transaction_ok e) (map tr ts2)).
  { apply Forall_forall. intros t It. apply in_map_iff in It as (u & <- & Hu). apply Cf, Hu. }
  destruct (write_read e (fun a => c_dec (comm a)) (map tr ts2) Ok2) as (text' & ts3 & E1 & E2 & E3). assert (text' = out) by congruence. subst text'.
  assert (C3 : Forall2 (completed find comm conv) ts3 (map tr ts2)).
  { assert (C2 : Forall2 (completed find comm conv) (map tr ts2) (map tr ts2)).
    { assert (Cf' : forall t, In t ts2 -> completed find comm conv (tr t) (tr t)).
      { intros t It. destruct (Cf t It) as [C _]. unfold tr. destruct trim; [apply completed_trim, C|exact C]. }
      clear - Cf'. induction ts2 as [|t l IH]; cbn [map]; constructor; [apply Cf'; left; reflexivity|]. apply IH. intros; apply Cf'; right; assumption. }
    clear - C2 E3. revert E3 C2. generalize (map tr ts2) as us. induction 1 as [|u t us ts S _ IH]; intros C2; [constructor|]. inversion C2; subst.
    constructor; [eapply completed_same; [exact S|apply same_refl|assumption]|apply IH; assumption]. }
  eapply (format_from e find comm conv names Na trim L2 out (map ITransaction ts3) (map tr ts2) (map tr ts2)).
  - exact Hok2.
  - exact E2.
  - rewrite transactions_of_map. exact C3.
  - apply ordered_self. apply order_trim, A2.
  - rewrite map_map. rewrite <- E1. f_equal. apply map_ext. intros t. unfold tr. destruct trim; [apply trim_tx_idem|reflexivity].
Qed.
Print Assumptions C22_format_command_partial.
Example C22_command_example : match yformat true ytext with Ok (_, out) => match yformat true out with Ok (_, out2) => out2 = out | _ => False end | _ => False end /\
  match yformat true ytext with Ok (_, out) => firstn 31 out = B "2020/03/01 (A1) First one ; n1" ++ [nl] | _ => False end.
Proof. vm_compute. split; reflexivity. Qed.

(** ** C75 format -t *)
(** the text becomes its words with one space between them *)
Theorem C75_trim : forall s, exists ws, spaced s ws /\ trim_ws s = join (B " ") ws /\ trim_ws (trim_ws s) = trim_ws s.
Proof. intros s. exists (words s). split; [apply spaced_words|]. split; [reflexivity|apply trim_ws_idem]. Qed.
Print Assumptions C75_trim.
Theorem C75_words_unique : forall s ws ws', spaced s ws -> spaced s ws' -> ws = ws'.
Proof. intros s ws ws' H H'. rewrite <- (words_spaced s ws H). apply words_spaced, H'. Qed.
Print Assumptions C75_words_unique.
(** format -t is format followed by trimming: nothing but descriptions and notes of transactions changes *)
Theorem C75_format_trim : forall e find comm conv accounts L text items L' out, ledger_ok L -> NoDup accounts ->
  read_text e text = Ok items -> format_file e find comm conv accounts true L text = Ok (L', out) ->
  exists ts1 ts2, Forall2 (completed find comm conv) (transactions_of items) ts1 /\ ordered_version ts1 ts2 /\
    (Forall (fun t => transaction_ok e (trim_tx t)) ts1 ->
     exists ts3, read_text e out = Ok (map ITransaction ts3) /\
       Forall2 (fun t t' => t_posted t' = t_posted t /\ t_code t' = t_code t /\ t_postings t' = t_postings t /\
         t_desc t' = trim_ws (t_desc t) /\ t_notes t' = map trim_ws (t_notes t)) ts2 ts3).
Proof.
  intros e find comm conv accounts L text items L' out Hok Na Hr H.
  destruct (format_inv e find comm conv accounts Na true L text L' out items Hok Hr H) as (ts1 & ts2 & A1 & A2 & A3 & A4 & A5 & A6).
  exists ts1, ts2. split; [exact A1|]. split; [exact A2|]. intros Ht.
  assert (Ht2 : Forall (transaction_ok e) (map trim_tx ts2)).
  { apply Forall_forall. intros t It. apply in_map_iff in It as (u & <- & Hu). rewrite Forall_forall in Ht. apply Ht. eapply Permutation_in; [symmetry; exact A3|exact Hu]. }
  cbn in A4. destruct (write_read e (fun a => c_dec (comm a)) _ Ht2) as (text' & ts3 & E1 & E2 & E3).
  assert (text' = out) by (change (fun t => trim_tx t) with trim_tx in A4; congruence). subst text'. exists ts3. split; [exact E2|].
  clear - E3. revert ts3 E3. induction ts2 as [|t l IH]; intros ts3 E3; inversion E3 as [|? u ? us S E4]; subst; constructor; [|apply IH, E4].
  unfold same_transaction, at_line, trim_tx in S. cbn in S. injection S as S1 S2 S3 S4 S5. auto.
Qed.
Print Assumptions C75_format_trim.

(** ** C40 balance checks survive formatting *)
(** if on no day an asserting transaction stands before one without assertions that shares an account, the
    formatted file loads with the same registers and the same warnings *)
Theorem C40_format_keeps_checks_partial : forall e compile names comm conv L0 text items L' out L ws sorted,
  let find := must_find_account compile names in ledger_ok L0 -> NoDup names ->
  read_text e text = Ok items ->
  (forall t t', In t (transactions_of items) -> completed find comm conv t t' -> transaction_ok e t') ->
  assertions_last find (transactions_of items) ->
  load_transactions find comm conv names true empty_ledger (transactions_of items) = Ok (L, ws, sorted) ->
  format_file e find comm conv names false L0 text = Ok (L', out) ->
  exists items' L2 ws2 sorted2, read_text e out = Ok items' /\
    load_transactions find comm conv names true empty_ledger (transactions_of items') = Ok (L2, ws2, sorted2) /\
    forall a, In a names ->
      Forall2 (fun p p2 => rp_date (heap L2 p2) = rp_date (heap L p) /\ rp_qty (heap L2 p2) = rp_qty (heap L p) /\ rp_notes (heap L2 p2) = rp_notes (heap L p) /\
                           (In p2 ws2 <-> In p ws)) (reg L a) (reg L2 a).
Proof.
  intros e compile names comm conv L0 text items L' out L ws sorted find Hok Na Hr Ht Al Hl H.
  destruct (format_inv e find comm conv names Na false L0 text L' out items Hok Hr H) as (ts1 & ts2 & A1 & A2 & A3 & A4 & A5 & A6).
  destruct (load_inv _ _ _ _ _ _ _ _ _ _ empty_ok Na Hl) as (L1 & xs & n & Ea & Es & _ & _ & R & _).
  assert (Cs : Forall2 (completed find comm conv) (transactions_of items) (map (as_written L) xs)).
  { clear - R. induction R as [|t x ts xs R1 R IH]; constructor; [apply resolved_completed, R1|exact IH]. }
  assert (Ov : ordered_version (map (as_written L) xs) (map (as_written L) sorted)) by (rewrite Es; eapply ordered_map, R).
  assert (S1 : Forall2 same_transaction ts1 (map (as_written L) xs)).
  { clear - A1 Cs. revert A1 Cs. generalize (map (as_written L) xs) as us. intros us A1. revert us. induction A1 as [|t u ts us' C _ IH]; intros us Cs; inversion Cs; subst; constructor; [eapply completed_unique; eassumption|apply IH; assumption]. }
  assert (S2 : Forall2 same_transaction ts2 (map (as_written L) sorted)) by (eapply ordered_same; eassumption).
  assert (Ok2 : Forall (transaction_ok e) ts2).
  { apply Forall_forall. intros t It. apply (Permutation_in _ (Permutation_sym A3)) in It. clear - A1 It Ht. induction A1 as [|u u' us us' C _ IH]; [destruct It|].
    destruct It as [<-|It]; [apply (Ht u); [left; reflexivity|exact C]|]. apply IH; [|exact It]. intros; eapply Ht; [right|]; eassumption. }
  cbn in A4. rewrite map_id in A4. destruct (write_read e (fun a => c_dec (comm a)) ts2 Ok2) as (text' & ts3 & E1 & E2 & E3). assert (text' = out) by congruence. subst text'.
  assert (S3 : Forall2 same_transaction (map (as_written L) sorted) ts3).
  { apply eq_same_Forall2. apply Forall2_same_eq in S2, E3. congruence. }
  destruct (recheck find comm conv names Na _ _ _ _ ts3 (must_find_idem compile names) Al Hl S3) as (L2 & ws2 & sorted2 & F1 & F2).
  exists (map ITransaction ts3), L2, ws2, sorted2. split; [exact E2|]. rewrite transactions_of_map. split; [exact F1|].
  intros a Ha. specialize (F2 a Ha). unfold rechecks in F2. clear - F2. induction F2 as [|p p2 l l2 (G1 & G2 & G3) _ IH]; constructor; [|exact IH].
  unfold wposting in G2. injection G2 as X1 X2 X3 X4. auto.
Qed.
Print Assumptions C40_format_keeps_checks_partial.

(** an instance: the second transaction of the day asserts balances *)
Lemma two_last find a b : tx_asserts a = false -> assertions_last find [a; b].
Proof.
  intros A ts1 t ts2 u ts3 E _ T _. destruct ts1 as [|x [|y [|z ts1]]]; cbn in E; [injection E as E1 E|injection E as E1 E2 E|injection E as E1 E2 E|injection E as E1 E2 E].
  - subst t. congruence.
  - destruct ts2; discriminate.
  - discriminate.
  - discriminate.
Qed.
Definition vtext : bytes := nls ["2020/03/01 First"; "  Expenses:Food  10 CAD"; "  Assets:Bank"; ""; "2020/03/01 Second"; "  Expenses:Fun  5 CAD = 7 CAD"; "  Assets:Bank  -5 CAD = -15 CAD"]%string.
Example C40_partial_example :
  match read_text xenv vtext with Ok items =>
    match transactions_of items with [a; b] => tx_asserts a = false /\ tx_asserts b = true | _ => False end /\
    match load_transactions yfind ycomm yconv yaccounts true empty_ledger (transactions_of items) with
    | Ok (L, ws, _) => length ws = 1%nat /\ length (reg L (B "Assets:Bank")) = 2%nat | _ => False end
  | _ => False end.
Proof. vm_compute. repeat split; reflexivity. Qed.

(** ** C53 modify *)
Theorem C53_modify_partial : forall e find comm conv accounts m L text items L' out n, ledger_ok L -> NoDup accounts ->
  read_text e text = Ok items -> modify_file e find comm conv accounts m L text = Ok (L', out, n) ->
  exists ts1 ts2 ts3 bs, Forall2 (completed find comm conv) (transactions_of items) ts1 /\ ordered_version ts1 ts2 /\ Permutation ts1 ts2 /\
    List.length ts3 = List.length bs /\ Forall2 (fun t r => modified_to m t (fst r) (snd r)) ts2 (combine ts3 bs) /\
    n = List.length (filter (fun b => b) bs) /\
    (Forall (transaction_ok e) ts3 -> exists ts4, read_text e out = Ok (map ITransaction ts4) /\ Forall2 same_transaction ts3 ts4) /\
    (forall a, reg L' a = reg L a).
Proof.
  intros e find comm conv accounts m L text items L' out n Hok Na Hr H.
  destruct (modify_inv e find comm conv accounts Na m L text L' out n items Hok Hr H) as (ts1 & ts2 & ts3 & bs & A1 & A2 & A3 & A4 & A5 & A6 & A7 & A8).
  exists ts1, ts2, ts3, bs. do 6 (split; [assumption|]). split; [|exact A8]. intros Ht.
  destruct (write_read e (fun a => c_dec (comm a)) ts3 Ht) as (text' & ts4 & E1 & E2 & E3). assert (text' = out) by congruence. subst text'. eauto.
Qed.
Print Assumptions C53_modify_partial.
(** quantities and balances are never changed, so a balanced transaction stays balanced *)
Theorem C53_quantities_kept : forall m t t' b, modified_to m t t' b ->
  map ps_quantity (t_postings t') = map ps_quantity (t_postings t) /\ map ps_balance (t_postings t') = map ps_balance (t_postings t).
Proof.
  intros m t t' b (_ & _ & _ & _ & A & C).
  assert (K : t' = t \/ t_postings t' = t_postings t \/ exists s1 s s2, t_postings t = s1 ++ s :: s2 /\ t_postings t' = s1 ++ changed_posting m s :: s2).
  { assert (Dec : selected m t \/ ~ selected m t).
    { unfold selected. destruct (m_payee m) as [f|].
      - destruct (f (t_desc t)) eqn:E1; [|right; intros [F _]; rewrite (F f eq_refl) in E1; discriminate].
        destruct (m_ttag m) as [tm|]; [|left; split; [intros ? [= <-]; exact E1|discriminate]].
        destruct (tags_match tm (parse_tags (t_notes t))) eqn:E2; [left; split; [intros ? [= <-]; exact E1|intros ? [= <-]; exact E2]|].
        right. intros [_ F]. rewrite (F tm eq_refl) in E2. discriminate.
      - destruct (m_ttag m) as [tm|]; [|left; split; discriminate].
        destruct (tags_match tm (parse_tags (t_notes t))) eqn:E2; [left; split; [discriminate|intros ? [= <-]; exact E2]|].
        right. intros [_ F]. rewrite (F tm eq_refl) in E2. discriminate. }
    destruct Dec as [S|S].
    - destruct (C S) as (_ & _ & C1 & C2). destruct b.
      + destruct (C1 eq_refl) as (_ & s1 & s & s2 & E1 & _ & _ & E2). right; right. eauto 6.
      + destruct (C2 eq_refl) as [E _]. auto.
    - left. apply A, S. }
  destruct K as [->|[->|(s1 & s & s2 & -> & ->)]]; auto. rewrite !map_app. auto.
Qed.
Print Assumptions C53_quantities_kept.
Definition ymodify (m : modify_cmd) := modify_file xenv yfind ycomm yconv yaccounts m empty_ledger.
Notation ymove := (mkModify (Some (B "Expenses:Food")) (Some (B "Expenses:Fun")) None None None [] []).
Example C53_example : match ymodify (mkModify (Some (B "Expenses:Food")) (Some (B "Expenses:Fun")) (Some (fun d => has_prefix (B "Later") d)) None None (B "#x") []) ytext with
  | Ok (_, out, n) => n = 1%nat /\ out = nls ["2020/03/01 (A1) First   one ; n1"; "  Expenses:Food   10.50 CAD"; "  Expenses:Fun    -0.50 CAD"; "  Assets:Bank    -10.00 CAD ; the rest"; "";
                              "2020/03/02 Later ; #x"; "  Expenses:Fun   20.00 CAD"; "  Assets:Bank   -20.00 CAD = 70.00 CAD"; ""]%string
  | _ => False end.
Proof. vm_compute. split; reflexivity. Qed.
(** with two postings in the account only the first is moved *)
Definition wtext : bytes := nls ["2020/03/01 x"; "  Expenses:Food  1 CAD"; "  Expenses:Food  2 CAD"; "  Assets:Bank"]%string.
Definition stays (items : list item) : bool :=
  existsb (fun t => existsb (fun s => eqb_bytes (ps_account s) (B "Expenses:Food")) (t_postings t)) (transactions_of items).
Lemma wtext_stays : match modify_file xenv yfind ycomm yconv yaccounts ymove empty_ledger wtext with Ok (_, out, _) => match read_text xenv out with Ok items => stays items | _ => false end | _ => false end = true.
Proof. vm_compute. reflexivity. Qed.
Lemma stays_facts text : match modify_file xenv yfind ycomm yconv yaccounts ymove empty_ledger text with Ok (_, out, _) => match read_text xenv out with Ok items => stays items | _ => false end | _ => false end = true ->
  exists L' out n items t s, modify_file xenv yfind ycomm yconv yaccounts ymove empty_ledger text = Ok (L', out, n) /\ read_text xenv out = Ok items /\ In t (transactions_of items) /\ In s (t_postings t) /\ ps_account s = B "Expenses:Food".
Proof.
  intros E. destruct (modify_file xenv yfind ycomm yconv yaccounts ymove empty_ledger text) as [[[L' out] n]| |]; try discriminate E. destruct (read_text xenv out) as [items| |] eqn:E2; try discriminate E.
  apply existsb_exists in E as (t & T & E). apply existsb_exists in E as (s & S & E). exists L', out, n, items, t, s. apply eqb_bytes_eq in E. auto 6.
Qed.
Theorem C53_all_moved_refuted : ~ (forall e find comm conv accounts a b text L' out n items',
  modify_file e find comm conv accounts (mkModify (Some a) (Some b) None None None [] []) empty_ledger text = Ok (L', out, n) ->
  read_text e out = Ok items' -> a <> b -> forall t s, In t (transactions_of items') -> In s (t_postings t) -> ps_account s <> a).
Proof.
  intros H. destruct (stays_facts wtext wtext_stays) as (L' & out & n & items & t & s & E1 & E2 & E3 & E4 & E5).
  apply (H xenv yfind ycomm yconv yaccounts (B "Expenses:Food") (B "Expenses:Fun") wtext L' out n items E1 E2 ltac:(discriminate) t s E3 E4 E5).
Qed.
Print Assumptions C53_all_moved_refuted.
