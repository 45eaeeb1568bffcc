(** C148-C150: the command line of register, register from its command line and its files to its text, and tests of register. *)
From Coq Require Import Permutation Sorted.
From Verif Require Import Base M_Amount M_Convert M_Date M_Names M_Tags M_Parser M_Ledger M_Report M_Database M_Output M_Coin M_TestReport M_Flags M_RegLine M_Pattern
  S_Decimal S_Amount S_Names S_Books S_Report S_Database S_Output S_Coin S_Commands S_TestReport S_Flags S_RegLine L_Dec L_Resolve L_Entries L_Flags L_Coin2
  Properties_Parser Properties_Database Properties_Coin Properties_Coin2 Properties_Coin3 Properties_TestReport Properties_Flags.
Local Open Scope Z_scope.

(** ** C148 *)
Lemma same_lines os os' given args line : Forall2 (fun o o' => o_name o = o_name o' /\ o_switch o = o_switch o' /\ forall v, o_takes o v -> o_takes o' v) os os' ->
  command_line os given args line -> command_line os' given args line.
Proof.
  intros H C. induction C as [line args E|o value text given args line Io Ht Ot C IH]; [constructor; assumption|].
  assert (X : exists o', In o' os' /\ o_name o = o_name o' /\ o_switch o = o_switch o' /\ forall v, o_takes o v -> o_takes o' v).
  { clear -H Io. induction H as [|a b os os' Hab H IH]; [destruct Io|]. destruct Io as [->|Io]; [exists b; split; [left; reflexivity|exact Hab]|]. destruct (IH Io) as (o' & I & K). exists o'. split; [right; exact I|exact K]. }
  destruct X as (o' & I' & En & Esw & T). rewrite En. apply cl_option; [exact I'|apply T, Ht| |exact IH].
  inversion Ot; subst; rewrite En; [apply ot_joined|apply ot_apart|apply ot_switch]; auto; congruence.
Qed.
Lemma register_names td : Forall (fun f => name_ok (fl_name f)) (register_flags td) /\ NoDup (map fl_name (register_flags td)).
Proof.
  split; [|repeat constructor; cbn; intuition discriminate]. repeat constructor; cbn [fl_name]; do 2 eexists; (split; [reflexivity|]); (split; [discriminate|]); cbn; intuition discriminate.
Qed.
Lemma date_takes td v : is_date td v = true <-> a_date td v.
Proof. unfold is_date, a_date. destruct (set_date td v); split; intros H; try discriminate; eauto; destruct H; discriminate. Qed.
Lemma switch_takes v : is_some (parse_bool v) = true <-> exists x, switch_text v x.
Proof. split; [destruct (parse_bool v) as [x|] eqn:E; [intros _; exists x; apply parse_bool_text, E|discriminate]|intros (x & H); apply parse_bool_text in H; rewrite H; reflexivity]. Qed.
Lemma number_takes v : is_some (parse_int_flag v) = true <-> exists z, number_text v z.
Proof. split; [destruct (parse_int_flag v) as [x|] eqn:E; [intros _; exists x; apply parse_number, E|discriminate]|intros (x & H); apply parse_number in H; rewrite H; reflexivity]. Qed.
Lemma register_accepts td given args line : parse_flags (register_flags td) line = Ok (given, args) <-> command_line (register_options td) given args line.
Proof.
  destruct (register_names td) as (Fn & N). rewrite (C145_command_line _ Fn N).
  split; apply same_lines; unfold register_flags, register_options; cbn [map option_of];
    repeat (constructor; [split; [reflexivity|]; split; [reflexivity|]; cbn [o_takes option_of fl_set]; intros v; first [apply date_takes|apply switch_takes|apply number_takes|tauto]|]); constructor.
Qed.
Lemma date_value td given n x : date_asked td given n x -> date_setting td (B n) given = x.
Proof. intros H. unfold date_setting. eapply (setting_value given (B n) _ (fun v => match set_date td v with Ok t => Some t | _ => None end)); [|exact H]. intros v y (t & -> & ->). reflexivity. Qed.
Lemma switch_value given n x : switched given n x -> bool_setting (B n) given = x.
Proof. intros H. unfold bool_setting. eapply (setting_value given (B n) _ (fun v => match parse_bool v with Some z => z | None => false end)); [|exact H]. intros v y K. apply parse_bool_text in K. rewrite K. reflexivity. Qed.
Lemma number_value given n d x : option_value given n number_text d x -> number_setting n given d = x.
Proof. intros H. unfold number_setting. eapply (setting_value given n _ (fun v => match parse_int_flag v with Some z => z | None => 0 end)); [|exact H]. intros v y K. apply parse_number in K. rewrite K. reflexivity. Qed.
Lemma text_value given n x : option_value given n eq [] x -> text_setting n given = x.
Proof. intros H. unfold text_setting. eapply (setting_value given n _ (fun v => v)); [|exact H]. auto. Qed.
Lemma request_of td given q : asks td given q -> register_request td given = q.
Proof.
  intros (Hb & He & Hp & Ht & Hr & (w & m & qu & y & Hw & Hm & Hq & Hy & Ep) & (bp & bt & Hbp & Hbt & Ec) & Hg & Hc & Hl & Hf & Ho & Hn). destruct q as [xb xe xp xt xr xper xcat xg xc xl xf xo xn]. cbn [rq_begin rq_end rq_payee rq_tag rq_below rq_period rq_category rq_top rq_cumulative rq_width rq_location rq_format rq_notes] in *.
  unfold register_request, period_setting, category_setting, format_setting.
  rewrite (date_value _ _ _ _ Hb), (date_value _ _ _ _ He), (text_value _ _ _ Hp), (text_value _ _ _ Ht), (switch_value _ _ _ Hr), (switch_value _ _ _ Hw), (switch_value _ _ _ Hm), (switch_value _ _ _ Hq),
    (switch_value _ _ _ Hy), (switch_value _ _ _ Hbp), (switch_value _ _ _ Hbt), (number_value _ _ _ _ Hg), (switch_value _ _ _ Hc), (number_value _ _ _ _ Hl), (switch_value _ _ _ Hf), (switch_value _ _ _ Hn), <- Ep, <- Ec.
  f_equal. eapply (setting_value given (B "o") _ (fun v => v)); [|exact Ho]. auto.
Qed.
Lemma given_taken os given args line : command_line os given args line -> forall n v, In (n, v) given -> exists o, In o os /\ o_name o = n /\ o_takes o v.
Proof.
  intros C. induction C as [line args E|o value text given args line Io Ht Ot C IH]; intros n v I; [destruct I|]. destruct I as [E|I]; [injection E as <- <-; eauto|auto].
Qed.
Lemma name_unique td o o' : In o (register_options td) -> In o' (register_options td) -> o_name o = o_name o' -> o = o'.
Proof.
  assert (N : NoDup (map o_name (register_options td))) by (repeat constructor; cbn; intuition discriminate). revert N. generalize (register_options td). intros os. induction os as [|a os IH]; intros N I I' E; [destruct I|].
  cbn [map] in N. inversion N as [|? ? Ni Ns]; subst. destruct I as [->|I], I' as [->|I']; [reflexivity| | |auto]; exfalso; apply Ni; [rewrite E|rewrite <- E]; apply in_map; assumption.
Qed.
Lemma value_exists {A} given n (read : bytes -> A -> Prop) d : (forall v, In (n, v) given -> exists x, read v x) -> exists x, option_value given n read d x.
Proof.
  intros H. destruct (setting n given) as [v|] eqn:E.
  - apply setting_some in E. destruct (H v) as (x & R); [destruct E as (a & c & -> & _); apply in_or_app; right; left; reflexivity|]. exists x. left. eauto.
  - apply setting_none in E. exists d. right. auto.
Qed.
(** every accepted line asks for exactly one thing *)
Theorem C148_one_request : forall td given args line, command_line (register_options td) given args line -> exists q, asks td given q /\ forall q', asks td given q' -> q' = q.
Proof.
  intros td given args line C. assert (T := given_taken _ _ _ _ C).
  assert (U : forall o v, In o (register_options td) -> In (o_name o, v) given -> o_takes o v) by (intros o v I J; destruct (T _ _ J) as (o' & I' & E & K); rewrite <- (name_unique td o' o I' I E); exact K).
  assert (S : forall n, In (mkOption (B n) true (fun v => exists x, switch_text v x)) (register_options td) -> exists x, switched given n x) by (intros n I; apply value_exists; intros v J; exact (U _ v I J)).
  assert (D : forall n, In (mkOption (B n) false (a_date td)) (register_options td) -> exists x, date_asked td given n x) by (intros n I; apply value_exists; intros v J; destruct (U _ v I J) as (t & E); eauto).
  assert (Nb : forall n d, In (mkOption (B n) false (fun v => exists z, number_text v z)) (register_options td) -> exists x, option_value given (B n) number_text d x) by (intros n d I; apply value_exists; intros v J; exact (U _ v I J)).
  assert (X : forall n d, exists x, option_value given (B n) eq d x) by (intros n d; apply value_exists; eauto).
  destruct (D "b"%string ltac:(cbn; tauto)) as (xb & Hb), (D "e"%string ltac:(cbn; tauto)) as (xe & He), (X "p"%string []) as (xp & Hp), (X "t"%string []) as (xt & Ht), (X "o"%string (B "text")) as (xo & Ho).
  destruct (S "r"%string ltac:(cbn; tauto)) as (xr & Hr), (S "w"%string ltac:(cbn; tauto)) as (xw & Hw), (S "m"%string ltac:(cbn; tauto)) as (xm & Hm), (S "q"%string ltac:(cbn; tauto)) as (xq & Hq),
    (S "y"%string ltac:(cbn; tauto)) as (xy & Hy), (S "bp"%string ltac:(cbn; tauto)) as (xbp & Hbp), (S "bt"%string ltac:(cbn; tauto)) as (xbt & Hbt), (S "c"%string ltac:(cbn; tauto)) as (xc & Hc),
    (S "f"%string ltac:(cbn; tauto)) as (xf & Hf), (S "n"%string ltac:(cbn; tauto)) as (xn & Hn), (Nb "g"%string 5 ltac:(cbn; tauto)) as (xg & Hg), (Nb "l"%string 12 ltac:(cbn; tauto)) as (xl & Hl).
  match goal with |- exists q, ?P => assert (Q : exists q, asks td given q) end.
  { exists (mkRequest xb xe xp xt xr (if xw then Some Weekly else if xm then Some Monthly else if xq then Some Quarterly else if xy then Some Yearly else None)
      (if xbp then Some ByPayee else if xbt then Some ByTags else None) xg xc xl xf xo xn). unfold asks.
    cbn [rq_begin rq_end rq_payee rq_tag rq_below rq_period rq_category rq_top rq_cumulative rq_width rq_location rq_format rq_notes].
    repeat (split; [assumption|]). split; [exists xw, xm, xq, xy; auto|]. split; [exists xbp, xbt; auto|]. repeat (split; [assumption|]). assumption. }
  destruct Q as (q & Q). exists q. split; [exact Q|]. intros q' Q'. rewrite <- (request_of _ _ _ Q), <- (request_of _ _ _ Q'). reflexivity.
Qed.
Print Assumptions C148_one_request.
(** register with a command line is register with what the line asks for, on the first argument *)
Theorem C148_register : forall td fuel compile rexm o comm b tx_of loc order line given pattern args q,
  command_line (register_options td) given (pattern :: args) line -> asks td given q -> ~ (switched given "bp" true /\ switched given "bt" true) ->
  register_line td fuel compile rexm o comm b tx_of loc order line = register_execute fuel compile rexm o comm b tx_of loc order q pattern.
Proof.
  intros td fuel compile rexm o comm b tx_of loc order line given pattern args q C A N. apply register_accepts in C. unfold register_line. rewrite C. cbn [bind fst snd].
  rewrite (request_of _ _ _ A). destruct A as (_ & _ & _ & _ & _ & _ & (bp & bt & Hbp & Hbt & _) & _). rewrite (switch_value _ _ _ Hbp), (switch_value _ _ _ Hbt).
  destruct bp, bt; try reflexivity. destruct N. auto.
Qed.
Print Assumptions C148_register.
(** other lines end the program: those that are not accepted, those without an account, those with both -bp and -bt, and those whose
    account is not found *)
Theorem C148_rejected : forall td fuel compile rexm o comm b tx_of loc order line,
  ((forall given args, ~ command_line (register_options td) given args line) -> register_line td fuel compile rexm o comm b tx_of loc order line = Fail) /\
  (forall given args, command_line (register_options td) given args line -> args = [] \/ (switched given "bp" true /\ switched given "bt" true) ->
     register_line td fuel compile rexm o comm b tx_of loc order line = Fail) /\
  (forall given pattern args, command_line (register_options td) given (pattern :: args) line -> (forall account, must_find_account compile (b_names b) pattern <> Ok account) ->
     forall text, register_line td fuel compile rexm o comm b tx_of loc order line <> Ok text).
Proof.
  intros td fuel compile rexm o comm b tx_of loc order line. split; [|split].
  - intros H. unfold register_line. destruct (parse_flags (register_flags td) line) as [[given args]| |] eqn:E; [destruct (H given args); apply register_accepts, E|reflexivity|].
    destruct (parse_no_panic _ (List.length line) line (le_n _) E).
  - intros given args C H. apply register_accepts in C. unfold register_line. rewrite C. cbn [bind fst snd]. destruct args as [|a args]; [reflexivity|].
    destruct H as [H|(H & K)]; [discriminate H|]. rewrite (switch_value _ _ _ H), (switch_value _ _ _ K). reflexivity.
  - intros given a args C H text E. apply register_accepts in C. unfold register_line in E. rewrite C in E. cbn [bind fst snd] in E. destruct (bool_setting (B "bp") given && bool_setting (B "bt") given); [discriminate|].
    unfold register_execute in E. apply bind_ok in E as (account & E & _). exact (H account E).
Qed.
Print Assumptions C148_rejected.
(** an unknown output format is not refused: the text is printed without its first line *)
Theorem C148_unknown_format_refuted : forall fuel compile rexm o comm b tx_of loc order q q' pattern, rq_period q = None -> rq_category q = None -> rq_format q = B "text" ->
  q' = mkRequest (rq_begin q) (rq_end q) (rq_payee q) (rq_tag q) (rq_below q) None None (rq_top q) (rq_cumulative q) (rq_width q) (rq_location q) (B "xml") (rq_notes q) ->
  forall text, register_execute fuel compile rexm o comm b tx_of loc order q pattern = Ok text ->
  exists acc rest, must_find_account compile (b_names b) pattern = Ok acc /\ text = acc ++ B " " ++ c_id (comm acc) ++ [chr 10] ++ rest /\
    register_execute fuel compile rexm o comm b tx_of loc order q' pattern = Ok rest.
Proof.
  intros fuel compile rexm o comm b tx_of loc order q q' pattern Hp Hc Hf -> text E. unfold register_execute in E |- *. cbn [rq_begin rq_end rq_payee rq_tag rq_below rq_period rq_category rq_top rq_cumulative rq_width rq_location rq_format rq_notes].
  apply bind_ok in E as (acc & Ea & E). rewrite Hp, Hc, Hf in E. apply bind_ok in E as (rest & El & E). injection E as <-. exists acc, rest. rewrite Ea. cbn [bind]. rewrite El.
  split; [reflexivity|]. split; [|reflexivity]. unfold first_line. match goal with |- context [if ?c then _ else _] => change c with true end. cbv iota. repeat rewrite <- app_assoc. reflexivity.
Qed.
Print Assumptions C148_unknown_format_refuted.
(** ** C149 *)
Lemma execute_listing fuel compile rexm o comm b tx_of loc order q pattern acc text : rq_period q = None -> rq_category q = None -> rq_location q = false ->
  must_find_account compile (b_names b) pattern = Ok acc ->
  coin_register fuel compile rexm o comm b tx_of pattern (rq_begin q) (rq_end q) (rq_tag q) (rq_payee q) (rq_below q) (rq_width q) (rq_notes q) = Ok (acc ++ B " " ++ c_id (comm acc) ++ [chr 10] ++ text) ->
  register_execute fuel compile rexm o comm b tx_of loc order q pattern = Ok (title q acc (c_id (comm acc)) ++ text).
Proof.
  intros Hp Hc Hl Ha E. unfold coin_register in E. rewrite Ha in E. cbn [bind] in E. unfold full_register in E.
  unfold register_execute. rewrite Ha, Hp, Hc, Hl. cbn [bind]. unfold full_listing.
  apply bind_ok in E as (is & E1 & E). rewrite E1. cbn [bind]. apply bind_ok in E as (t & E2 & E). rewrite E2. cbn [bind]. injection E as E.
  apply app_inv_head in E. injection E as E. apply app_inv_head in E. injection E as ->. reflexivity.
Qed.
Definition file_rows (es : list event) : list row := rows_of (map snd (ev_txs es)).
Definition chosen_by (rexm : bytes -> bytes -> bool) (find : bytes -> res bytes) (q : request) : bytes -> row -> bool := row_chosen rexm (rq_begin q) (rq_end q) (rq_tag q) (rq_payee q) find.
Lemma execute_from limit w files compile rexm fuel comm b es : load_from limit w files compile fuel comm b -> all_entries w [] files es ->
  forall tx_of, (forall x p, In x (b_txs b) -> In p (x_posts x) -> tx_of p = x) ->
  let find := must_find_account compile (b_names b) in let parent := t_parent (b_tree b) in let id := commodity_id (b_db b) in let rows := file_rows es in
  (forall t, In t (map snd (ev_txs es)) -> in_account_commodity find comm t) ->
  exists N, forall o fuel' loc order pattern q acc com, (N <= fuel')%nat ->
    find pattern = Ok acc -> plain_request parent comm com (chosen_by rexm find q) rows q acc ->
    exists shown, rows_shown parent (account_listed parent q acc) (chosen_by rexm find q) rows shown /\
      ((forall i r, nth_error shown i = Some r -> printable (mkAmount (row_value r) com) /\ printable (mkAmount (sum_so_far shown i) com)) ->
       exists lines, register_execute fuel' compile rexm o comm b tx_of loc order q pattern = Ok (title q acc (c_id com) ++ register_text lines) /\
         lines_of_rows find com id q acc shown lines).
Proof.
  intros Hl Hes tx_of Htx find parent id rows Hq. destruct (register_from limit w files compile rexm fuel comm b es Hl Hes tx_of Htx Hq) as (N & H). exists N.
  intros o fuel' loc order pattern q acc com Hf Ha (Hp & Hc & Hlo & Hw & Hx & Hcom & Htwo).
  destruct (H o fuel' pattern acc (rq_begin q) (rq_end q) (rq_tag q) (rq_payee q) (rq_below q) (rq_width q) (rq_notes q) com Hf Ha Hw Hx Hcom Htwo) as (accs & shown & K1 & K2 & K3 & K4 & K5 & K).
  exists shown. split; [exists accs; auto|]. intros Hpr. destruct (K Hpr) as (lines & E & Ll & F & _). exists lines.
  assert (Ec : comm acc = com). { apply Hcom. unfold account_listed. destruct (rq_below q); [apply under_self|reflexivity]. }
  split; [|split; [exact Ll|exact F]]. rewrite <- Ec. apply execute_listing; auto. rewrite Ec. exact E.
Qed.
(** "coin register" with any command line that asks for no aggregation, from the files to the text: the chosen postings of the account (with -r
    of those below it) by date, each on a line with its quantity and the sum so far; the first line names the account and its commodity. *)
Theorem C149_register : forall td limit w DB compile rexm fuel comm b es, load_all limit w DB compile fuel comm b -> all_entries w [] (database_files w DB) es ->
  forall tx_of, (forall x p, In x (b_txs b) -> In p (x_posts x) -> tx_of p = x) ->
  let find := must_find_account compile (b_names b) in let parent := t_parent (b_tree b) in let id := commodity_id (b_db b) in let rows := file_rows es in
  (forall t, In t (map snd (ev_txs es)) -> in_account_commodity find comm t) ->
  exists N, forall o fuel' loc order line given pattern args q acc com, (N <= fuel')%nat ->
    command_line (register_options td) given (pattern :: args) line -> asks td given q ->
    find pattern = Ok acc -> plain_request parent comm com (chosen_by rexm find q) rows q acc ->
    exists shown, rows_shown parent (account_listed parent q acc) (chosen_by rexm find q) rows shown /\
      ((forall i r, nth_error shown i = Some r -> printable (mkAmount (row_value r) com) /\ printable (mkAmount (sum_so_far shown i) com)) ->
       exists lines, register_line td fuel' compile rexm o comm b tx_of loc order line = Ok (title q acc (c_id com) ++ register_text lines) /\
         lines_of_rows find com id q acc shown lines).
Proof.
  intros td limit w DB compile rexm fuel comm b es Hl Hes tx_of Htx find parent id rows Hq.
  destruct (execute_from limit w (database_files w DB) compile rexm fuel comm b es (proj1 (load_all_from _ _ _ _ _ _ _) Hl) Hes tx_of Htx Hq) as (N & H). exists N.
  intros o fuel' loc order line given pattern args q acc com Hf C A Ha P. destruct (H o fuel' loc order pattern q acc com Hf Ha P) as (shown & S & K). exists shown. split; [exact S|]. intros Hp. destruct (K Hp) as (lines & E & F). exists lines.
  split; [|exact F]. rewrite (C148_register td fuel' compile rexm o comm b tx_of loc order line given pattern args q C A); [exact E|]. intros (Hbp & Hbt).
  destruct P as (_ & Hc & _). destruct A as (_ & _ & _ & _ & _ & _ & (bp & bt & Kbp & Kbt & Ec) & _). rewrite Hc in Ec. apply switch_value in Hbp. apply switch_value in Kbp. rewrite Hbp in Kbp. subst bp. discriminate Ec.
Qed.
Print Assumptions C149_register.
(** ** C150 *)
(** tests of register: a test whose command line asks for no aggregation passes exactly if its text is the listing by the file's entries *)
Theorem C150_test_register : forall td limit w fn compile rexm fuel comm b es, load_from limit w [fn] compile fuel comm b -> all_entries w [] [fn] es ->
  forall tx_of, (forall x p, In x (b_txs b) -> In p (x_posts x) -> tx_of p = x) ->
  let find := must_find_account compile (b_names b) in let parent := t_parent (b_tree b) in let id := commodity_id (b_db b) in let rows := file_rows es in
  (forall t, In t (map snd (ev_txs es)) -> in_account_commodity find comm t) ->
  exists N, forall o fuel' loc order cs t name line given pattern args q acc com, (N <= fuel')%nat ->
    cs name = Some (test_register td fuel' compile rexm o comm b tx_of loc order) -> spaced (pt_cmd t) (name :: line) ->
    command_line (register_options td) given (pattern :: args) line -> asks td given q ->
    find pattern = Ok acc -> plain_request parent comm com (chosen_by rexm find q) rows q acc ->
    exists shown, rows_shown parent (account_listed parent q acc) (chosen_by rexm find q) rows shown /\
      ((forall i r, nth_error shown i = Some r -> printable (mkAmount (row_value r) com) /\ printable (mkAmount (sum_so_far shown i) com)) ->
       exists lines, lines_of_rows find com id q acc shown lines /\
         let text := title q acc (c_id com) ++ register_text lines in
         prints cs t text /\ (passes cs t <-> answered t /\ pt_result t = text) /\ (fails cs t <-> answered t /\ pt_result t <> text)).
Proof.
  intros td limit w fn compile rexm fuel comm b es Hl Hes tx_of Htx find parent id rows Hq.
  destruct (execute_from limit w [fn] compile rexm fuel comm b es Hl Hes tx_of Htx Hq) as (N & H). exists N.
  intros o fuel' loc order cs t name line given pattern args q acc com Hf Hcs Hsp C A Ha P. destruct (H o fuel' loc order pattern q acc com Hf Ha P) as (shown & S & K). exists shown. split; [exact S|]. intros Hp. destruct (K Hp) as (lines & E & F). exists lines.
  split; [exact F|]. cbv zeta. assert (Pr : prints cs t (title q acc (c_id com) ++ register_text lines)).
  { exists name, line, (test_register td fuel' compile rexm o comm b tx_of loc order). split; [exact Hsp|]. split; [exact Hcs|]. unfold test_register. apply register_accepts in C. rewrite C. cbn [bind fst snd]. rewrite (request_of _ _ _ A), E. reflexivity. }
  assert (U : forall out, prints cs t out -> out = title q acc (c_id com) ++ register_text lines) by (intros out Q; apply run_prints in Q; apply run_prints in Pr; congruence).
  split; [exact Pr|]. split.
  - split; [intros (X & Q); split; [exact X|exact (U _ Q)]|intros (X & Er); split; [exact X|]; rewrite Er; exact Pr].
  - split; [intros (X & out & Q & D); split; [exact X|]; rewrite (U _ Q) in D; congruence|intros (X & D); split; [exact X|]; eexists; split; [exact Pr|congruence]].
Qed.
Print Assumptions C150_test_register.
(** ** The aggregated register *)
Lemma execute_aggregated fuel compile rexm o comm b tx_of loc order q pattern : rq_period q <> None \/ rq_category q <> None -> In (rq_format q) [B "text"; B "json"; B "csv"] ->
  register_execute fuel compile rexm o comm b tx_of loc order q pattern =
  coin_aggregated fuel compile rexm o comm b tx_of pattern (rq_begin q) (rq_end q) (rq_tag q) (rq_payee q) (rq_period q) (rq_category q) (rq_below q) (rq_cumulative q) (rq_top q) (rq_width q)
    (out_of (rq_format q)) order.
Proof.
  intros A F. unfold register_execute, coin_aggregated. destruct (must_find_account compile (b_names b) pattern) as [acc| |]; cbn [bind]; [|reflexivity|reflexivity].
  assert (E : match rq_period q, rq_category q with
    | None, None => full_listing fuel rexm o comm b tx_of (rq_begin q) (rq_end q) (rq_tag q) (rq_payee q) (rq_below q) (rq_width q) (rq_notes q) (if rq_location q then Some loc else None) acc
    | per, cat => aggregated_table fuel rexm o comm b tx_of (rq_begin q) (rq_end q) (rq_tag q) (rq_payee q) per cat (rq_below q) (rq_cumulative q) (rq_top q) (rq_width q) (out_of (rq_format q)) order acc
    end = aggregated_table fuel rexm o comm b tx_of (rq_begin q) (rq_end q) (rq_tag q) (rq_payee q) (rq_period q) (rq_category q) (rq_below q) (rq_cumulative q) (rq_top q) (rq_width q) (out_of (rq_format q)) order acc).
  { destruct (rq_period q), (rq_category q); try reflexivity. destruct A as [A|A]; destruct A; reflexivity. }
  rewrite E. clear E. unfold aggregated_table, aggregated_register.
  repeat match goal with |- context [bind (bind ?x ?f) ?g] => destruct x; cbn [bind]; [|reflexivity|reflexivity] | |- context [bind ?x ?f] => destruct x; cbn [bind]; [|reflexivity|reflexivity] end.
  cbn [In] in F. destruct F as [F|[F|[F|[]]]]; rewrite <- F; [|reflexivity|reflexivity]. unfold first_line. repeat match goal with |- context [if ?c then _ else _] => change c with true; cbv iota end.
  change (out_of (B "text")) with OutText. cbv iota. repeat rewrite <- app_assoc. reflexivity.
Qed.
(** the table of C126: columns, lines and amounts *)
Definition aggregated_shows (parent : bytes -> option bytes) (com : commodity) (chosen : bytes -> row -> bool) (rows : list row)
    (acc : bytes) (q : request) (order : list (option bytes)) (printed : res bytes) : Prop :=
  exists below, (forall x, under parent acc x -> NoDup (below x) /\ forall y, In y (below x) <-> under parent x y) /\
  let reduce := option_map first_day (rq_period q) in
  let group := option_map category_of (rq_category q) in
  let n := Z.to_nat (rq_top q) in
  let own P x := sum_of rows (fun r => P r && chosen x r) in
  let counted P k := match k with Some x => if rq_below q then zsum (map (own P) (below x)) else own P x | None => 0 end in
  let column P k := match k with Some _ => counted P k | None => zsum (map (counted P) (skipn n order)) end in
  let amount t k col := mkAmount (column (if rq_cumulative q then up_to reduce t else on_line reduce group t k) col) com in
  (forall k, In k order <-> exists x y r, k = Some x /\ under parent acc x /\ under parent x y /\ In r rows /\ chosen y r = true) /\
  (In (Some acc) (shown_cols n order) ->
   exists keys, StronglySorted line_before keys /\
   (forall t k, In (t, k) keys <-> (exists x r, under parent acc x /\ In r rows /\ chosen x r = true /\ on_line reduce group t k r = true) /\ (rq_category q = None -> k = [])) /\
   ((forall t k col, In (t, k) keys -> In col (shown_cols n order) -> printable (amount t k col)) ->
    exists labels body, Forall2 (heading acc (rq_width q)) (shown_cols n order) labels /\
      let dated := match rq_period q with Some _ => true | None => false end in
      let grouped := match rq_category q with Some _ => true | None => false end in
      let text := match rq_period q with Some p => period_text p | None => format_date end in
      Forall2 (fun key => table_row dated grouped text (key, map (amount (fst key) (snd key)) (shown_cols n order))) keys body /\
      let header date category := (if dated then [date] else []) ++ (if grouped then [category] else []) ++ labels in
      (rq_format q = B "csv" -> exists out, printed = Ok out /\ read_csv out = Some (header (B "Date") (B "Category") :: body)) /\
      (rq_format q = B "json" -> exists out, printed = Ok out /\ read_json_lines out = Some (header (B "Date") (B "Category") :: body)) /\
      (rq_format q = B "text" -> (forall t k, In (t, k) keys -> 0 <= year_of t <= 9999) ->
       exists lines, printed = Ok (acc ++ B " " ++ c_id com ++ [chr 10] ++ table_text lines) /\
         Forall2 (Forall2 right_set) (header [] [] :: body) lines /\ aligned rune_count lines))).
(** the requests it is about: some aggregation, cumulative only without categories, a format that exists, at least no columns, no -p with !
    (C69_selection_refuted), no empty description by payee (C122_empty_category_refuted) *)
Definition table_request (parent : bytes -> option bytes) (comm : bytes -> commodity) (com : commodity) (chosen : bytes -> row -> bool) (rows : list row) (q : request) (acc : bytes) : Prop :=
  (rq_period q <> None \/ rq_category q <> None) /\ (rq_cumulative q = true -> rq_category q = None) /\ In (rq_format q) [B "text"; B "json"; B "csv"] /\ 0 <= rq_top q /\
  (forall r, rq_payee q <> B "!" ++ r) /\ (forall x, under parent acc x -> comm x = com) /\
  (rq_category q = Some ByPayee -> forall x r, In r rows -> under parent acc x -> chosen x r = true -> t_desc (fst r) <> []).
Lemma execute_table_from limit w files compile rexm fuel comm b es : load_from limit w files compile fuel comm b -> all_entries w [] files es ->
  forall tx_of, (forall x p, In x (b_txs b) -> In p (x_posts x) -> tx_of p = x) ->
  let find := must_find_account compile (b_names b) in let parent := t_parent (b_tree b) in let rows := file_rows es in
  (forall t, In t (map snd (ev_txs es)) -> in_account_commodity find comm t) ->
  exists N, forall o fuel' loc pattern q acc com, (N <= fuel')%nat ->
    find pattern = Ok acc -> table_request parent comm com (chosen_by rexm find q) rows q acc ->
    exists m, coin_totals fuel' rexm o b tx_of (rq_begin q) (rq_end q) (rq_tag q) (rq_payee q) (rq_period q) (rq_category q) (rq_below q) acc = Ok m /\
      (exists order, top_order (book_conv (b_prices b) o) m order) /\
      forall order, top_order (book_conv (b_prices b) o) m order ->
        aggregated_shows parent com (chosen_by rexm find q) rows acc q order (register_execute fuel' compile rexm o comm b tx_of loc order q pattern).
Proof.
  intros Hl Hes tx_of Htx find parent rows Hq. destruct (aggregated_from limit w files compile rexm fuel comm b es Hl Hes tx_of Htx Hq) as (N & H). exists N.
  intros o fuel' loc pattern q acc com Hf Ha (Hagg & Hcum & Hfmt & Htop & Hpay & Hcom & Hne).
  destruct (H o fuel' pattern acc (rq_begin q) (rq_end q) (rq_tag q) (rq_payee q) (rq_period q) (rq_category q) (rq_below q) (rq_cumulative q) (rq_width q) com Hf Ha Hagg Hcum Hpay Hcom Hne) as (below & m & Hb & Em & Ex & K).
  exists m. split; [exact Em|]. split; [exact Ex|]. intros order Hord. destruct (K (Z.to_nat (rq_top q)) order Hord) as (K1 & K2). exists below. split; [exact Hb|]. cbv zeta. split; [exact K1|].
  intros Hin. destruct (K2 Hin) as (keys & S1 & S2 & S3). exists keys. split; [exact S1|]. split; [exact S2|]. intros Hp. destruct (S3 Hp) as (labels & body & L1 & L2 & (oc & Ec & Rc) & (oj & Ej & Rj) & Tx).
  exists labels, body. split; [exact L1|]. split; [exact L2|]. rewrite (execute_aggregated fuel' compile rexm o comm b tx_of loc order q pattern Hagg Hfmt). rewrite Z2Nat.id in Ec, Ej, Tx by exact Htop.
  split; [|split].
  - intros E. rewrite E. exists oc. split; [exact Ec|exact Rc].
  - intros E. rewrite E. exists oj. split; [exact Ej|exact Rj].
  - intros E Hy. rewrite E. exact (Tx Hy).
Qed.
(** the same for command lines that ask for a table *)
Theorem C149_aggregated : forall td limit w DB compile rexm fuel comm b es, load_all limit w DB compile fuel comm b -> all_entries w [] (database_files w DB) es ->
  forall tx_of, (forall x p, In x (b_txs b) -> In p (x_posts x) -> tx_of p = x) ->
  let find := must_find_account compile (b_names b) in let parent := t_parent (b_tree b) in let rows := file_rows es in
  (forall t, In t (map snd (ev_txs es)) -> in_account_commodity find comm t) ->
  exists N, forall o fuel' loc line given pattern args q acc com, (N <= fuel')%nat ->
    command_line (register_options td) given (pattern :: args) line -> asks td given q -> ~ (switched given "bp" true /\ switched given "bt" true) ->
    find pattern = Ok acc -> table_request parent comm com (chosen_by rexm find q) rows q acc ->
    exists m, coin_totals fuel' rexm o b tx_of (rq_begin q) (rq_end q) (rq_tag q) (rq_payee q) (rq_period q) (rq_category q) (rq_below q) acc = Ok m /\
      (exists order, top_order (book_conv (b_prices b) o) m order) /\
      forall order, top_order (book_conv (b_prices b) o) m order ->
        aggregated_shows parent com (chosen_by rexm find q) rows acc q order (register_line td fuel' compile rexm o comm b tx_of loc order line).
Proof.
  intros td limit w DB compile rexm fuel comm b es Hl Hes tx_of Htx find parent rows Hq.
  destruct (execute_table_from limit w (database_files w DB) compile rexm fuel comm b es (proj1 (load_all_from _ _ _ _ _ _ _) Hl) Hes tx_of Htx Hq) as (N & H). exists N.
  intros o fuel' loc line given pattern args q acc com Hf C A Nb Ha P. destruct (H o fuel' loc pattern q acc com Hf Ha P) as (m & Em & Ex & K). exists m. split; [exact Em|]. split; [exact Ex|]. intros order Hord.
  rewrite (C148_register td fuel' compile rexm o comm b tx_of loc order line given pattern args q C A Nb). exact (K order Hord).
Qed.
Print Assumptions C149_aggregated.
Theorem C150_test_aggregated : forall td limit w fn compile rexm fuel comm b es, load_from limit w [fn] compile fuel comm b -> all_entries w [] [fn] es ->
  forall tx_of, (forall x p, In x (b_txs b) -> In p (x_posts x) -> tx_of p = x) ->
  let find := must_find_account compile (b_names b) in let parent := t_parent (b_tree b) in let rows := file_rows es in
  (forall t, In t (map snd (ev_txs es)) -> in_account_commodity find comm t) ->
  exists N, forall o fuel' loc t name line given pattern args q acc com, (N <= fuel')%nat ->
    spaced (pt_cmd t) (name :: line) -> command_line (register_options td) given (pattern :: args) line -> asks td given q ->
    find pattern = Ok acc -> table_request parent comm com (chosen_by rexm find q) rows q acc ->
    exists m, coin_totals fuel' rexm o b tx_of (rq_begin q) (rq_end q) (rq_tag q) (rq_payee q) (rq_period q) (rq_category q) (rq_below q) acc = Ok m /\
      (exists order, top_order (book_conv (b_prices b) o) m order) /\
      forall order cs, top_order (book_conv (b_prices b) o) m order -> cs name = Some (test_register td fuel' compile rexm o comm b tx_of loc order) ->
        exists printed, aggregated_shows parent com (chosen_by rexm find q) rows acc q order printed /\
          forall text, printed = Ok text -> prints cs t text /\ (passes cs t <-> answered t /\ pt_result t = text) /\ (fails cs t <-> answered t /\ pt_result t <> text).
Proof.
  intros td limit w fn compile rexm fuel comm b es Hl Hes tx_of Htx find parent rows Hq.
  destruct (execute_table_from limit w [fn] compile rexm fuel comm b es Hl Hes tx_of Htx Hq) as (N & H). exists N.
  intros o fuel' loc t name line given pattern args q acc com Hf Hsp C A Ha P. destruct (H o fuel' loc pattern q acc com Hf Ha P) as (m & Em & Ex & K). exists m. split; [exact Em|]. split; [exact Ex|]. intros order cs Hord Hcs.
  exists (register_execute fuel' compile rexm o comm b tx_of loc order q pattern). split; [exact (K order Hord)|]. intros text E.
  assert (Pr : prints cs t text).
  { exists name, line, (test_register td fuel' compile rexm o comm b tx_of loc order). split; [exact Hsp|]. split; [exact Hcs|]. unfold test_register. apply register_accepts in C. rewrite C. cbn [bind fst snd]. rewrite (request_of _ _ _ A), E. reflexivity. }
  assert (U : forall out, prints cs t out -> out = text) by (intros out Q; apply run_prints in Q; apply run_prints in Pr; congruence).
  split; [exact Pr|]. split.
  - split; [intros (X & Q); split; [exact X|exact (U _ Q)]|intros (X & Er); split; [exact X|]; rewrite Er; exact Pr].
  - split; [intros (X & out & Q & D); split; [exact X|]; rewrite (U _ Q) in D; congruence|intros (X & D); split; [exact X|]; eexists; split; [exact Pr|congruence]].
Qed.
Print Assumptions C150_test_aggregated.
(** ** Examples *)
(** the book of C147: its hypotheses are those of C150 *)
Definition rline : list bytes := [B "-r"; B "--l=0"; B "-p=early"; B "--"; B "expenses"].
Definition rgiven : list (bytes * bytes) := [(B "r", B "true"); (B "l", B "0"); (B "p", B "early")].
Definition rreq : request := mkRequest None None (B "early") [] true None None 5 false 0 false (B "text") false.
Definition q_register (line : list bytes) : res bytes :=
  register_line qtoday 20 M_Pattern.account_match (fun p s => eqb_bytes p s) xo xcomm qbook qtx_of (fun _ => []) [Some (B "Expenses:Food"); Some (B "Expenses")] line.
Lemma rasks : asks qtoday rgiven rreq.
Proof.
  assert (N : forall A n (read : bytes -> A -> Prop) d, ~ In (B n) (map fst rgiven) -> option_value rgiven (B n) read d d) by (intros; right; auto).
  assert (L : forall A n v (read : bytes -> A -> Prop) d x, In (n, v) rgiven -> NoDup (map fst rgiven) -> read v x -> option_value rgiven n read d x).
  { intros A n v read d x I Nd R. left. exists v. split; [|exact R]. apply in_split in I as (l1 & l2 & I). rewrite I in Nd. exists l1, l2. split; [exact I|]. rewrite map_app in Nd. cbn [map fst] in Nd. apply NoDup_remove_2 in Nd. intros J. apply Nd, in_or_app. auto. }
  assert (Nd : NoDup (map fst rgiven)) by (repeat constructor; cbn; intuition discriminate).
  unfold asks, rreq. cbn [rq_begin rq_end rq_payee rq_tag rq_below rq_period rq_category rq_top rq_cumulative rq_width rq_location rq_format rq_notes].
  split; [apply N; cbn; intuition discriminate|]. split; [apply N; cbn; intuition discriminate|]. split; [eapply L; [right; right; left; reflexivity|exact Nd|reflexivity]|].
  split; [apply N; cbn; intuition discriminate|]. split; [eapply L; [left; reflexivity|exact Nd|cbn; auto]|].
  split; [exists false, false, false, false; repeat split; try (apply N; cbn; intuition discriminate)|]. split; [exists false, false; repeat split; try (apply N; cbn; intuition discriminate)|].
  split; [apply N; cbn; intuition discriminate|]. split; [apply N; cbn; intuition discriminate|]. split; [eapply L; [right; left; reflexivity|exact Nd|apply parse_number; vm_compute; reflexivity]|].
  repeat (split; [apply N; cbn; intuition discriminate|]). apply N. cbn. intuition discriminate.
Qed.
Example C148_example : command_line (register_options qtoday) rgiven [B "expenses"] rline /\ asks qtoday rgiven rreq /\
  parse_flags (register_flags qtoday) [B "-m"; B "-bt"; B "-g"; B "2"; B "-c=false"; B "x"] = Ok ([(B "m", B "true"); (B "bt", B "true"); (B "g", B "2"); (B "c", B "false")], [B "x"]) /\
  q_register [B "-bp"; B "-bt"; B "food"] = Fail /\ q_register [B "-m"] = Fail /\ q_register [B "-g"; B "x"; B "food"] = Fail.
Proof. split; [apply register_accepts; vm_compute; reflexivity|]. split; [exact rasks|]. repeat split; vm_compute; reflexivity. Qed.
Definition qrows : list row := rows_of (map snd (d_txs qdb_db)).
Example C149_hypotheses : must_find_account M_Pattern.account_match (b_names qbook) (B "expenses") = Ok (B "Expenses") /\
  plain_request (t_parent (b_tree qbook)) xcomm (xcomm (B "Expenses")) (chosen_by (fun p s => eqb_bytes p s) (must_find_account M_Pattern.account_match (b_names qbook)) rreq) qrows rreq (B "Expenses").
Proof.
  split; [vm_compute; reflexivity|]. split; [reflexivity|]. split; [reflexivity|]. split; [reflexivity|]. split; [cbn; lia|]. split; [intros _ r H; discriminate H|]. split.
  - intros x _. reflexivity.
  - intros x r I _ _. assert (F : forallb (fun r : row => (2 <=? List.length (t_postings (fst r)))%nat) qrows = true) by (vm_compute; reflexivity). rewrite forallb_forall in F. apply Nat.leb_le, (F r I).
Qed.
Example C149_example : q_register rline = Ok (B "Expenses CAD" ++ [chr 10] ++ reg_lines [(["2020/01/01"; "early"; ":Food"; "Assets:Bank"; "1.00"; "1.00"], " CAD ")]%string) /\
  q_register [B "-o"; B "xml"; B "-r"; B "-l"; B "0"; B "expenses"] =
    Ok (reg_lines [(["2020/01/01"; "early"; ":Food"; "Assets:Bank"; "1.00"; "1.00"], " CAD "); (["2020/01/02"; " late"; ":Food"; "Assets:Bank"; "2.50"; "3.50"], " CAD ")]%string) /\
  q_register [B "-y"; B "-o=csv"; B "-r"; B "expenses"] = Ok (nls ["Date,:Food,Expenses"; "2020,3.50,3.50"]%string).
Proof. split; [|split]; vm_compute; reflexivity. Qed.
Definition treq : request := mkRequest None None [] [] true (Some Yearly) None 5 false 12 false (B "csv") false.
Lemma treq_ok parent chosen rows : table_request parent xcomm (xcomm (B "Expenses")) chosen rows treq (B "Expenses").
Proof.
  split; [left; discriminate|]. split; [discriminate|]. split; [right; right; left; reflexivity|]. split; [cbn; lia|]. split; [intros r H; discriminate H|]. split; [intros x _; reflexivity|intros H; discriminate H].
Qed.
Example C149_table_hypotheses :
  table_request (t_parent (b_tree qbook)) xcomm (xcomm (B "Expenses")) (chosen_by (fun p s => eqb_bytes p s) (must_find_account M_Pattern.account_match (b_names qbook)) treq) qrows treq (B "Expenses").
Proof. exact (treq_ok _ _ _). Qed.
