(** C145-C147: the command lines of the commands, and the test command with balance. *)
From Coq Require Import Permutation.
From Verif Require Import Base M_Amount M_Convert M_Date M_Names M_Tags M_Parser M_Ledger M_Report M_Database M_Output M_Coin M_TestReport M_Flags M_Pattern
  S_Decimal S_Amount S_Names S_Books S_Report S_Database S_Output S_Coin S_Commands S_TestReport S_Flags L_Dec L_Resolve L_Entries L_Flags L_Coin2
  Properties_Parser Properties_Database Properties_Coin Properties_TestReport.
Local Open Scope Z_scope.

(** ** C145 *)
(** A command line is accepted exactly if it is options of the command in one of their written forms, with values they take, and then
    arguments; and it means these options, in that order, and these arguments. *)
Theorem C145_command_line : forall fs, Forall (fun f => name_ok (fl_name f)) fs -> NoDup (map fl_name fs) -> forall line given args,
  parse_flags fs line = Ok (given, args) <-> command_line (map option_of fs) given args line.
Proof. intros fs Fn N line given args. split; [apply (parse_sound fs Fn (List.length line)); lia|apply (parse_complete fs Fn N)]. Qed.
Print Assumptions C145_command_line.
(** so it has one meaning, *)
Theorem C145_one_meaning : forall fs, Forall (fun f => name_ok (fl_name f)) fs -> NoDup (map fl_name fs) -> forall line given args given' args',
  command_line (map option_of fs) given args line -> command_line (map option_of fs) given' args' line -> given = given' /\ args = args'.
Proof. intros fs Fn N line given args given' args' H K. apply (C145_command_line fs Fn N) in H. apply (C145_command_line fs Fn N) in K. rewrite H in K. injection K as <- <-. auto. Qed.
Print Assumptions C145_one_meaning.
(** and any other ends the program with a message *)
Theorem C145_refused : forall fs, Forall (fun f => name_ok (fl_name f)) fs -> NoDup (map fl_name fs) -> forall line,
  parse_flags fs line = Fail <-> forall given args, ~ command_line (map option_of fs) given args line.
Proof.
  intros fs Fn N line. split.
  - intros H given args K. apply (C145_command_line fs Fn N) in K. congruence.
  - intros H. destruct (parse_flags fs line) as [[given args]| |] eqn:E; [|reflexivity|destruct (parse_no_panic fs (List.length line) line (le_n _) E)]. destruct (H given args). apply (C145_command_line fs Fn N), E.
Qed.
Print Assumptions C145_refused.

(** the options of balance *)
Definition balance_options (td : today) : list option_def :=
  [mkOption (B "b") false (fun v => exists t, set_date td v = Ok t); mkOption (B "e") false (fun v => exists t, set_date td v = Ok t);
   mkOption (B "p") false (fun _ => True); mkOption (B "t") false (fun _ => True);
   mkOption (B "z") true (fun v => exists x, switch_text v x); mkOption (B "l") false (fun v => exists z, number_text v z)].
Lemma balance_names td : Forall (fun f => name_ok (fl_name f)) (balance_flags td) /\ NoDup (map fl_name (balance_flags td)).
Proof.
  split; [|repeat constructor; cbn; intuition discriminate]. repeat constructor; cbn [fl_name]; do 2 eexists; (split; [reflexivity|]); (split; [discriminate|]); cbn; intuition discriminate.
Qed.
Lemma balance_accepts td given args line : parse_flags (balance_flags td) line = Ok (given, args) <-> command_line (balance_options td) given args line.
Proof.
  destruct (balance_names td) as (Fn & N). rewrite (C145_command_line _ Fn N).
  assert (Same : forall os os', Forall2 (fun o o' => o_name o = o_name o' /\ o_switch o = o_switch o' /\ forall v, o_takes o v -> o_takes o' v) os os' -> command_line os given args line -> command_line os' given args line).
  { intros os os' H C. induction C as [line args E|o value text given args line Io Ht Ot C IH]; [constructor; assumption|].
    assert (X : exists o', In o' os' /\ o_name o = o_name o' /\ o_switch o = o_switch o' /\ forall v, o_takes o v -> o_takes o' v).
    { clear -H Io. induction H as [|a b os os' Hab H IH]; [destruct Io|]. destruct Io as [->|Io]; [exists b; split; [left; reflexivity|exact Hab]|]. destruct (IH Io) as (o' & I & K). exists o'. split; [right; exact I|exact K]. }
    destruct X as (o' & I' & En & Esw & T). rewrite En. apply cl_option; [exact I'|apply T, Ht| |exact IH].
    inversion Ot; subst; rewrite En; [apply ot_joined|apply ot_apart|apply ot_switch]; auto; congruence. }
  assert (D : forall v, is_date td v = true <-> exists t, set_date td v = Ok t) by (intros v; unfold is_date; destruct (set_date td v); split; intros H; try discriminate; eauto; destruct H; discriminate).
  assert (Z : forall v, is_some (parse_bool v) = true <-> exists x, switch_text v x). { intros v. split; [destruct (parse_bool v) as [x|] eqn:E; [intros _; exists x; apply parse_bool_text, E|discriminate]|intros (x & H); apply parse_bool_text in H; rewrite H; reflexivity]. }
  assert (Nb : forall v, is_some (parse_int_flag v) = true <-> exists z, number_text v z). { intros v. split; [destruct (parse_int_flag v) as [x|] eqn:E; [intros _; exists x; apply parse_number, E|discriminate]|intros (x & H); apply parse_number in H; rewrite H; reflexivity]. }
  split; apply Same; unfold balance_flags, balance_options; cbn [map option_of];
    repeat (constructor; [split; [reflexivity|]; split; [reflexivity|]; cbn [o_takes option_of fl_set]; intros v; first [apply D|apply Z|apply Nb|tauto]|]); constructor.
Qed.
(** The text of balance for a command line is the one for the values of its options: the last value given for each, and the defaults; the
    first argument is the account *)
Theorem C145_balance : forall td fuel compile rexm o comm b tx_of line given args begin end_ tag payee level zero,
  command_line (balance_options td) given args line ->
  option_value given (B "b") (fun v x => exists t, set_date td v = Ok t /\ x = Some t) None begin ->
  option_value given (B "e") (fun v x => exists t, set_date td v = Ok t /\ x = Some t) None end_ ->
  option_value given (B "p") eq [] payee -> option_value given (B "t") eq [] tag ->
  option_value given (B "l") number_text 0 level -> option_value given (B "z") switch_text false zero ->
  balance_line td fuel compile rexm o comm b tx_of line = coin_balance fuel compile rexm o comm b tx_of (hd_error args) begin end_ tag payee level zero.
Proof.
  intros td fuel compile rexm o comm b tx_of line given args begin end_ tag payee level zero C Hb He Hp Ht Hl Hz. apply balance_accepts in C. unfold balance_line. rewrite C. cbn [bind fst snd].
  assert (Eb : date_setting td (B "b") given = begin) by (unfold date_setting; eapply (setting_value given (B "b") _ (fun v => match set_date td v with Ok t => Some t | _ => None end)); [|exact Hb]; intros v y (t & -> & ->); reflexivity).
  assert (Ee : date_setting td (B "e") given = end_) by (unfold date_setting; eapply (setting_value given (B "e") _ (fun v => match set_date td v with Ok t => Some t | _ => None end)); [|exact He]; intros v y (t & -> & ->); reflexivity).
  assert (Ep : text_setting (B "p") given = payee) by (unfold text_setting; eapply (setting_value given (B "p") _ (fun v => v)); [|exact Hp]; auto).
  assert (Et : text_setting (B "t") given = tag) by (unfold text_setting; eapply (setting_value given (B "t") _ (fun v => v)); [|exact Ht]; auto).
  assert (El : int_setting (B "l") given = level) by (unfold int_setting; eapply (setting_value given (B "l") _ (fun v => match parse_int_flag v with Some z => z | None => 0 end)); [|exact Hl]; intros v y H; apply parse_number in H; rewrite H; reflexivity).
  assert (Ez : bool_setting (B "z") given = zero) by (unfold bool_setting; eapply (setting_value given (B "z") _ (fun v => match parse_bool v with Some z => z | None => false end)); [|exact Hz]; intros v y H; apply parse_bool_text in H; rewrite H; reflexivity).
  rewrite Eb, Ee, Ep, Et, El, Ez. destruct args; reflexivity.
Qed.
Print Assumptions C145_balance.
(** the order of different options, and the way they are written, make no difference *)
Theorem C145_order : forall td fuel compile rexm o comm b tx_of line line' given given' args,
  command_line (balance_options td) given args line -> command_line (balance_options td) given' args line' -> Permutation given given' -> NoDup (map fst given) ->
  balance_line td fuel compile rexm o comm b tx_of line = balance_line td fuel compile rexm o comm b tx_of line'.
Proof.
  intros td fuel compile rexm o comm b tx_of line line' given given' args C C' P N. apply balance_accepts in C. apply balance_accepts in C'. unfold balance_line. rewrite C, C'. cbn [bind fst snd].
  unfold date_setting, text_setting, int_setting, bool_setting. rewrite !(fun n => setting_perm given given' n P N). reflexivity.
Qed.
Print Assumptions C145_order.
(** ** C146 *)
(** what balance is to print, as in C126: own and total amounts of the accounts, by the entries of the files, *)
Definition posted_totals (es : list event) (names : list bytes) (parent : bytes -> option bytes) (find : bytes -> res bytes) (rexm : bytes -> bytes -> bool)
    (begin end_ : option Z) (tag payee : bytes) (own total : bytes -> Z) : Prop :=
  own = posted_to find (wanted rexm begin end_ tag payee) (map snd (ev_txs es)) /\
  exists below, (forall x, In x names -> NoDup (below x) /\ forall y, In y (below x) <-> under parent x y) /\ total = fun x => zsum (map own (below x)).
(** and the lines *)
Definition listed (parent : bytes -> option bytes) (id : bytes -> bytes) (com : commodity) (account : bytes) (level : Z) (zero : bool) (own total : bytes -> Z) (lines : list (list bytes)) : Prop :=
  exists shown, Forall2 (listing_row com id own total) shown lines /\ NoDup shown /\
    (forall x, In x shown <-> under parent account x /\ (level = 0 \/ exists n, at_level parent x n /\ Z.of_nat n <= level) /\ (zero = true \/ total x <> 0)) /\
    (forall x y, In x shown -> In y shown -> under parent x y -> x <> y -> comes_before shown x y).
(** the options of a command line of balance, and its account *)
Definition balance_meaning (td : today) (find : bytes -> res bytes) (line : list bytes) (account : bytes) (begin end_ : option Z) (payee tag : bytes) (level : Z) (zero : bool) : Prop :=
  exists given args, command_line (balance_options td) given args line /\
    match args with [] => account = B "Root" | a :: _ => find a = Ok account end /\
    option_value given (B "b") (fun v x => exists t, set_date td v = Ok t /\ x = Some t) None begin /\
    option_value given (B "e") (fun v x => exists t, set_date td v = Ok t /\ x = Some t) None end_ /\
    option_value given (B "p") eq [] payee /\ option_value given (B "t") eq [] tag /\
    option_value given (B "l") number_text 0 level /\ option_value given (B "z") switch_text false zero.
Lemma balance_line_from td limit w files compile rexm fuel comm b es : load_from limit w files compile fuel comm b -> all_entries w [] files es ->
  forall tx_of, (forall x p, In x (b_txs b) -> In p (x_posts x) -> tx_of p = x) ->
  let find := must_find_account compile (b_names b) in let parent := t_parent (b_tree b) in let id := commodity_id (b_db b) in
  (forall t, In t (map snd (ev_txs es)) -> in_account_commodity find comm t) ->
  exists N, forall o fuel' line account begin end_ payee tag level zero com, (N <= fuel')%nat ->
    balance_meaning td find line account begin end_ payee tag level zero -> (forall x, under parent account x -> comm x = com) ->
    exists own total, posted_totals es (b_names b) parent find rexm begin end_ tag payee own total /\
      ((forall x, under parent account x -> printable (mkAmount (own x) com) /\ printable (mkAmount (total x) com)) ->
       exists lines, balance_line td fuel' compile rexm o comm b tx_of line = Ok (table_text lines) /\ listed parent id com account level zero own total lines).
Proof.
  intros Hl Hes tx_of Htx find parent id Hq. destruct (balance_from limit w files compile rexm fuel comm b es Hl Hes tx_of Htx Hq) as (N & H). exists N.
  intros o fuel' line account begin end_ payee tag level zero com Hf (given & args & C & Ha & Vb & Ve & Vp & Vt & Vl & Vz) Hcom.
  assert (Ha' : match hd_error args with None => account = B "Root" | Some a => must_find_account compile (b_names b) a = Ok account end) by (destruct args; exact Ha).
  destruct (H o fuel' (hd_error args) account begin end_ tag payee level zero com Hf Ha' Hcom) as (below & Hb & K).
  eexists. eexists. split; [split; [reflexivity|]; exists below; split; [exact Hb|reflexivity]|]. intros Hp. destruct (K Hp) as (shown & lines & E & F & _ & Nd & I & O). exists lines. split.
  - rewrite (C145_balance td fuel' compile rexm o comm b tx_of line given args begin end_ tag payee level zero C Vb Ve Vp Vt Vl Vz). exact E.
  - exists shown. auto.
Qed.
(** "coin balance" with any command line, from the files: its options in any written form, then the account; the text is that of C126. *)
Theorem C146_balance : forall td limit w DB compile rexm fuel comm b es, load_all limit w DB compile fuel comm b -> all_entries w [] (database_files w DB) es ->
  forall tx_of, (forall x p, In x (b_txs b) -> In p (x_posts x) -> tx_of p = x) ->
  let find := must_find_account compile (b_names b) in let parent := t_parent (b_tree b) in let id := commodity_id (b_db b) in
  (forall t, In t (map snd (ev_txs es)) -> in_account_commodity find comm t) ->
  exists N, forall o fuel' line account begin end_ payee tag level zero com, (N <= fuel')%nat ->
    balance_meaning td find line account begin end_ payee tag level zero -> (forall x, under parent account x -> comm x = com) ->
    exists own total, posted_totals es (b_names b) parent find rexm begin end_ tag payee own total /\
      ((forall x, under parent account x -> printable (mkAmount (own x) com) /\ printable (mkAmount (total x) com)) ->
       exists lines, balance_line td fuel' compile rexm o comm b tx_of line = Ok (table_text lines) /\ listed parent id com account level zero own total lines).
Proof. intros td limit w DB compile rexm fuel comm b es H. exact (balance_line_from td limit w (database_files w DB) compile rexm fuel comm b es (proj1 (load_all_from _ _ _ _ _ _ _) H)). Qed.
Print Assumptions C146_balance.
(** a line that balance does not accept ends the program, one whose account is not found is an error *)
Theorem C146_rejected : forall td fuel compile rexm o comm b tx_of line,
  ((forall given args, ~ command_line (balance_options td) given args line) -> balance_line td fuel compile rexm o comm b tx_of line = Fail) /\
  (forall given a args, command_line (balance_options td) given (a :: args) line -> (forall account, must_find_account compile (b_names b) a <> Ok account) ->
     forall text, balance_line td fuel compile rexm o comm b tx_of line <> Ok text).
Proof.
  intros td fuel compile rexm o comm b tx_of line. split.
  - intros H. unfold balance_line. destruct (parse_flags (balance_flags td) line) as [[given args]| |] eqn:E; [destruct (H given args); apply balance_accepts, E|reflexivity|].
    destruct (parse_no_panic _ (List.length line) line (le_n _) E).
  - intros given a args C H text E. apply balance_accepts in C. unfold balance_line in E. rewrite C in E. cbn [bind fst snd] in E. unfold coin_balance in E. apply bind_ok in E as (account & E & _). exact (H account E).
Qed.
Print Assumptions C146_rejected.
(** ** C147 *)
(** "coin test file" for a test of balance: it passes exactly if its expected text is that of the listing for its command line, by the
    entries of the file (and the files it includes); otherwise it fails, unless it has no expected text *)
Theorem C147_test_balance : forall td limit w fn compile rexm fuel comm b es, load_from limit w [fn] compile fuel comm b -> all_entries w [] [fn] es ->
  forall tx_of, (forall x p, In x (b_txs b) -> In p (x_posts x) -> tx_of p = x) ->
  let find := must_find_account compile (b_names b) in let parent := t_parent (b_tree b) in let id := commodity_id (b_db b) in
  (forall t, In t (map snd (ev_txs es)) -> in_account_commodity find comm t) ->
  exists N, forall o fuel' cs t name line account begin end_ payee tag level zero com, (N <= fuel')%nat ->
    cs name = Some (test_balance td fuel' compile rexm o comm b tx_of) -> spaced (pt_cmd t) (name :: line) ->
    balance_meaning td find line account begin end_ payee tag level zero -> (forall x, under parent account x -> comm x = com) ->
    exists own total, posted_totals es (b_names b) parent find rexm begin end_ tag payee own total /\
      ((forall x, under parent account x -> printable (mkAmount (own x) com) /\ printable (mkAmount (total x) com)) ->
       exists lines, listed parent id com account level zero own total lines /\ prints cs t (table_text lines) /\
         (passes cs t <-> answered t /\ pt_result t = table_text lines) /\ (fails cs t <-> answered t /\ pt_result t <> table_text lines)).
Proof.
  intros td limit w fn compile rexm fuel comm b es Hl Hes tx_of Htx find parent id Hq. destruct (balance_line_from td limit w [fn] compile rexm fuel comm b es Hl Hes tx_of Htx Hq) as (N & H). exists N.
  intros o fuel' cs t name line account begin end_ payee tag level zero com Hf Hcs Hsp M Hcom. destruct (H o fuel' line account begin end_ payee tag level zero com Hf M Hcom) as (own & total & P & K). exists own, total. split; [exact P|].
  intros Hp. destruct (K Hp) as (lines & E & L). exists lines. split; [exact L|].
  assert (Pr : prints cs t (table_text lines)). { exists name, line, (test_balance td fuel' compile rexm o comm b tx_of). split; [exact Hsp|]. split; [exact Hcs|]. unfold test_balance. rewrite E. reflexivity. }
  assert (U : forall out, prints cs t out -> out = table_text lines) by (intros out Q; apply run_prints in Q; apply run_prints in Pr; congruence).
  split; [exact Pr|]. split.
  - split; [intros (A & Q); split; [exact A|exact (U _ Q)]|intros (A & Er); split; [exact A|]]. 
    match goal with |- prints _ _ ?x => replace x with (table_text lines) by congruence end. exact Pr.
  - split; [intros (A & out & Q & D); split; [exact A|]; rewrite (U _ Q) in D; congruence|intros (A & D); split; [exact A|]; exists (table_text lines); split; [exact Pr|congruence]].
Qed.
Print Assumptions C147_test_balance.
(** ** Examples *)
(** a test file in the manner of the tests directory: the data, then tests of balance *)
Definition qdb : world := small_world
  [(B "t.coin", nls ["commodity CAD"; "  format 1.00 CAD"; "account Assets:Bank"; "  commodity CAD"; ""; "account Expenses:Food"; "";
                     "2020/01/02 late"; "  Expenses:Food  2.50 CAD"; "  Assets:Bank"; ""; "2020/01/01 early"; "  Expenses:Food  1 CAD"; "  Assets:Bank"; "";
                     "test balance -b 2020/1/2 -z food"; "2.50 | 2.50 CAD | Expenses:Food"; "end test"]%string)] [].
Definition qdb_db : db := match load_list 5 qdb [B "t.coin"] empty_db with Some (Ok d) => d | _ => empty_db end.
Lemma qdb_loaded : load_list 5 qdb [B "t.coin"] empty_db = Some (Ok qdb_db).
Proof. vm_compute. reflexivity. Qed.
Definition qorder : list bytes := base_accounts (map fst (d_accounts qdb_db)).
Definition qtree : tree := match resolve_accounts 5 (map fst (d_accounts qdb_db)) qorder xnames xnames with Ok (T, _) => T | _ => mkTree (fun _ => None) (fun _ => []) end.
Definition qbook : book := load_book M_Pattern.account_match xcomm qdb_db qtree xnames.
Definition qtx_of : nat -> rtx := tx_in (b_txs qbook).
Definition qtoday : today := (2021, 5, 5).
Definition qtest : ptest := mkPTest (B "balance -b 2020/1/2 -z food") (nls ["2.50 | 2.50 CAD | Expenses:Food"]%string) 16.
Definition qcs : commands := fun n => if existsb (eqb_bytes n) [B "balance"; B "bal"; B "b"]
  then Some (test_balance qtoday 20 M_Pattern.account_match (fun p s => eqb_bytes p s) xo xcomm qbook qtx_of) else None.
Example C147_hypotheses : load_from 5 qdb [B "t.coin"] M_Pattern.account_match 5 xcomm qbook /\ (exists es c, all_entries qdb [] [B "t.coin"] es /\ ev_comms es = [c]) /\
  (forall x p, In x (b_txs qbook) -> In p (x_posts x) -> qtx_of p = x).
Proof.
  split; [|split].
  - assert (H6 : loads M_Pattern.account_match xcomm qdb_db xnames = true) by (vm_compute; reflexivity). unfold qbook, load_book. unfold loads in H6.
    match goal with |- context [match ?r with Ok _ => _ | Fail => _ | Panic => _ end] => destruct r as [[[L ws] xs]| |] eqn:E; [|discriminate|discriminate] end. clear H6.
    exists qdb_db. split; [exact qdb_loaded|]. exists [], qorder, xnames, xnames, xnames, xo. cbn [b_prices b_names b_tree b_ledger b_warned b_txs b_db].
    split. { assert (H2 : d_prices qdb_db = []) by (vm_compute; reflexivity). rewrite H2. exists []. split; [reflexivity|]. split; [constructor|]. split; constructor. }
    split; [reflexivity|]. do 3 (split; [reflexivity|]). split.
    { destruct (ok_pair (resolve_accounts 5 (map fst (d_accounts qdb_db)) qorder xnames xnames) xnames) as [T ET]; [vm_compute; reflexivity|]. unfold qtree. rewrite ET. reflexivity. }
    split; [|split; [intros ? ? ?; reflexivity|]; split; [exact E|reflexivity]]. intros n I. unfold xnames in I. repeat (destruct I as [<-|I]; [vm_compute; reflexivity|]). destruct I.
  - destruct (C76_in_place _ _ _ _ qdb_loaded) as (es & A1 & _ & A3). exists es.
    destruct A3 as (_ & _ & _ & _ & _ & _ & _ & _ & _ & A3). replace (d_next qdb_db) with 1%nat in A3 by (vm_compute; reflexivity). destruct (ev_comms es) as [|c [|]]; try discriminate A3. exists c. auto.
  - apply tx_in_ok; [vm_compute; reflexivity|]. replace (map x_desc (b_txs qbook)) with [B "early"; B "late"] by (vm_compute; reflexivity).
    constructor; [intros [H|[]]; discriminate|constructor; [intros []|constructor]].
Qed.
Definition qline : list bytes := [B "-b"; B "2020/1/2"; B "-z"; B "food"].
Example C145_example : command_line (balance_options qtoday) [(B "b", B "2020/1/2"); (B "z", B "true")] [B "food"] qline /\
  parse_flags (balance_flags qtoday) [B "--l=1"; B "-z=F"; B "-p"; B "-x"; B "--"; B "-z"] = Ok ([(B "l", B "1"); (B "z", B "F"); (B "p", B "-x")], [B "-z"]) /\
  parse_flags (balance_flags qtoday) [B "food"; B "-z"] = Ok ([], [B "food"; B "-z"]) /\
  map (parse_flags (balance_flags qtoday)) [[B "-y"]; [B "-b"]; [B "-l"; B "x"]; [B "-=1"]; [B "---z"]; [B "-z=2"]] = [Fail; Fail; Fail; Fail; Fail; Fail].
Proof. split; [apply balance_accepts; vm_compute; reflexivity|]. repeat split; vm_compute; reflexivity. Qed.
Example C146_example : exists d, balance_meaning qtoday (must_find_account M_Pattern.account_match (b_names qbook)) qline (B "Expenses:Food") (Some d) None [] [] 0 true.
Proof.
  destruct (set_date qtoday (B "2020/1/2")) as [d| |] eqn:E; [|vm_compute in E; discriminate E|vm_compute in E; discriminate E]. exists d.
  exists [(B "b", B "2020/1/2"); (B "z", B "true")], [B "food"]. split; [apply C145_example|]. split; [vm_compute; reflexivity|].
  split; [left; exists (B "2020/1/2"); split; [exists [], [(B "z", B "true")]; split; [reflexivity|cbn; intuition discriminate]|eauto]|].
  split; [right; split; [cbn; intuition discriminate|reflexivity]|]. split; [right; split; [cbn; intuition discriminate|reflexivity]|]. split; [right; split; [cbn; intuition discriminate|reflexivity]|].
  split; [right; split; [cbn; intuition discriminate|reflexivity]|]. left. exists (B "true"). split; [exists [(B "b", B "2020/1/2")], []; split; [reflexivity|intros []]|cbn; auto].
Qed.
Example C147_example : d_tests qdb_db = [(B "t.coin", qtest)] /\ passes qcs qtest /\ fails qcs (mkPTest (B "bal food") (B "2.50 | 2.50 CAD | Expenses:Food" ++ [nl]) 1).
Proof.
  split; [vm_compute; reflexivity|]. split.
  - split; [discriminate|]. apply run_prints. vm_compute. reflexivity.
  - split; [discriminate|]. exists (B "3.50 | 3.50 CAD | Expenses:Food" ++ [nl]). split; [|discriminate]. apply run_prints. vm_compute. reflexivity.
Qed.
