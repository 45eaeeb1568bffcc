(** C83-C87: importing CSV files. *)
From Coq Require Import Sorted Permutation.
From Verif Require Import Base M_Amount M_Date M_Regex M_Parser M_Names M_Ledger M_Rules M_Commands M_Writer M_Writer S_Amount S_Date S_Ledger S_Rules S_Books S_Commands S_Ofx L_Dec L_Sort L_RoundTrip L_Parser L_Rules L_Resolve L_Resolve2 L_Load L_Move L_Words L_Ofx2
  Properties_Parser Properties_Ledger Properties_Rules Properties_Rules2 M_Csv S_Csv S_CsvRules L_Csv L_Csv2 L_Csv3 L_Csv4 L_CsvRules L_CsvRules2.

(** ** C83 the value of a field *)
(** [named] (S_Csv) is the meaning of the rules of a source: of the definitions of a name the first one that gives something; a
    column; what a template makes of the groups of a match in a column; what a template makes of other values, on a condition. *)
Theorem C83_value_partial : forall rexm row fm fuel n v, value rexm row fm fuel n = Ok v -> named rexm row fm n v.
Proof. intros rexm row fm fuel n v. apply value_sound. Qed.
Print Assumptions C83_value_partial.
Theorem C83_value_found : forall rexm row fm n v, named rexm row fm n v -> exists N, forall fuel, (N <= fuel)%nat -> value rexm row fm fuel n = Ok v.
Proof. intros rexm row fm n v. apply value_complete. Qed.
Print Assumptions C83_value_found.
Theorem C83_one_value : forall rexm row fm n v w, named rexm row fm n v -> named rexm row fm n w -> v = w.
Proof. intros rexm row fm n v w. apply named_det. Qed.
Print Assumptions C83_one_value.
(** a name that is not defined is empty *)
Theorem C83_undefined_empty : forall rexm row fm n, ~ In n (map fst fm) -> named rexm row fm n [].
Proof.
  intros rexm row fm n H. constructor. assert (E : fields_of fm n = []). { unfold fields_of. destruct (alookup n fm) eqn:E; [|reflexivity]. apply alookup_in in E. exfalso. apply H. apply (in_map fst) in E. exact E. } rewrite E. constructor.
Qed.
Print Assumptions C83_undefined_empty.
(** README.md: the source of the example *)
Definition k_rexm (p s : bytes) : option (list bytes) := if eqb_bytes p (B "VALUE = (\d+)") then (if eqb_bytes s (B "VALUE = 12") then Some [B "VALUE = 12"; B "12"] else None) else if eqb_bytes p (B "Interest|Dividend") then (if eqb_bytes s (B "Dividend ABC") then Some [B "Dividend"] else None) else None.
Definition k_fm : fmap := [(B "account", [mkField None (B "123") [] None]); (B "description", [mkField (Some 3) [] [] None]); (B "note1", [mkField (Some 1) [] [] None]); (B "note2", [mkField (Some 0) [] [] None]);
  (B "note", [mkField None (B "${note2} => ${note1}") [] None]); (B "symbol", [mkField None (B "USD") (B "description") (Some (B "Interest|Dividend"))]); (B "amount", [mkField (Some 2) (B "$1.00") [] (Some (B "VALUE = (\d+)"))])].
Example C83_example : let v := value k_rexm [B "a"; B "b"; B "VALUE = 12"; B "Dividend ABC"] k_fm 3 in
  v (B "account") = Ok (B "123") /\ v (B "note") = Ok (B "a => b") /\ v (B "symbol") = Ok (B "USD") /\ v (B "amount") = Ok (B "12.00") /\ v (B "quantity") = Ok [].
Proof. repeat split; vm_compute; reflexivity. Qed.
(** in full the property fails: a dollar at the end of a template, or two of them, stop the program *)
Theorem C83_dollar_refuted : forall rexm row fm fuel,
  value rexm row ((B "note", [mkField None (B "5$") [] None]) :: fm) (S fuel) (B "note") = Panic /\
  value rexm row ((B "note", [mkField None (B "$$5") [] None]) :: fm) (S fuel) (B "note") = Panic.
Proof. split; reflexivity. Qed.
Print Assumptions C83_dollar_refuted.
(** a value defined by itself never ends *)
Theorem C83_cycle_refuted : exists fm, forall rexm row, (forall fuel, value rexm row fm fuel (B "note") = Fail) /\ forall v, ~ named rexm row fm (B "note") v.
Proof.
  exists [(B "note", [mkField None (B "${note}!") [] None])]. intros rexm row.
  assert (F : forall fuel, value rexm row [(B "note", [mkField None (B "${note}!") [] None])] fuel (B "note") = Fail).
  { induction fuel as [|f IH]; [reflexivity|]. cbn [value]. change (fields_of [(B "note", [mkField None (B "${note}!") [] None])] (B "note")) with [mkField None (B "${note}!") [] None]. cbn [first_value].
    assert (E : forall val : bytes -> res bytes, val (B "note") = Fail -> field_value rexm row val (mkField None (B "${note}!") [] None) = Fail).
    { intros val Hv. unfold field_value. cbn [f_idx f_cond f_out]. unfold derived_out. change (split_on "$"%char (B "${note}!")) with [[]; B "{note}!"].
      assert (D : derived_part val (B "{note}!") = Fail). { change (derived_part val (B "{note}!")) with (do v <- val (B "note"); Ok (v ++ B "!")). rewrite Hv. reflexivity. }
      cbn [res_map]. rewrite D. reflexivity. }
    rewrite (E _ IH). reflexivity. }
  split; [exact F|]. intros v H. apply value_complete in H as (N & H). specialize (H N ltac:(lia)). rewrite F in H. discriminate.
Qed.
Print Assumptions C83_cycle_refuted.
(** a column that a row does not have stops the program *)
Theorem C83_short_row_refuted : forall rexm row fm fuel n i re rest, alookup n fm = Some (mkField (Some i) [] [] re :: rest) -> Z.of_nat (List.length row) <= i -> value rexm row fm (S fuel) n = Panic.
Proof.
  intros rexm row fm fuel n i re rest E H. cbn [value]. unfold fields_of. rewrite E. cbn [first_value]. unfold field_value. cbn [f_idx]. unfold row_at. assert (i <? 0 = false) by lia. rewrite H0.
  assert (N : nth_error row (Z.to_nat i) = None) by (apply nth_error_None; lia). rewrite N. reflexivity.
Qed.
Print Assumptions C83_short_row_refuted.

(** ** C84 a row becomes one transaction with two postings, or is dropped by a rule *)
Theorem C84_row_partial : forall matches rexm fuel comm children by_ofx_id by_id by_symbol fm ri L row L' o,
  (forall id ars, account_rules_for by_ofx_id ri id = Ok ars -> exists rs, expands (ri_sets ri) (ar_rules ars) rs) -> (forall a, levels children fuel a) -> ledger_ok L ->
  transaction_from matches rexm fuel comm children by_ofx_id by_id by_symbol L row fm (Some ri) = Ok (L', o) ->
  becomes_row matches rexm comm children by_ofx_id by_id by_symbol fm ri L' row o /\ ledger_ok L' /\ (forall p, (p < nxt L)%nat -> heap L' p = heap L p).
Proof.
  intros matches rexm fuel comm children by_ofx_id by_id by_symbol fm ri L row L' o H1 H2 H3 H4. destruct (row_spec _ _ _ _ _ _ _ _ _ _ H1 H2 _ _ _ _ H3 H4) as ((_ & A & B) & _ & C). auto.
Qed.
Print Assumptions C84_row_partial.
(** the two postings balance: one commodity and a sum of zero when nothing is traded, opposite signs otherwise *)
Theorem C84_balanced : forall matches rexm comm children by_ofx_id by_id by_symbol fm ri L row x,
  becomes_row matches rexm comm children by_ofx_id by_id by_symbol fm ri L row (Some x) ->
  exists p q a b, x_posts x = [p; q] /\ p <> q /\ rp_qty (heap L p) = Some a /\ rp_qty (heap L q) = Some b /\ a_int a * a_int b <= 0 /\ rp_asserted (heap L p) = false /\ rp_asserted (heap L q) = false /\
  rp_date (heap L p) = x_posted x /\ rp_date (heap L q) = x_posted x /\
  (named rexm row fm (B "symbol") [] -> a_com a = a_com b /\ a_int a + a_int b = 0).
Proof.
  intros matches rexm comm children by_ofx_id by_id by_symbol fm ri L row x (acct & descr & ws & ars & rs & found & _ & _ & _ & _ & _ & _ & H).
  assert (P : forall from fa to ta, two_postings L x from fa to ta -> a_int fa * a_int ta <= 0 -> (named rexm row fm (B "symbol") [] -> a_com fa = a_com ta /\ a_int fa + a_int ta = 0) -> exists p q a b, x_posts x = [p; q] /\ p <> q /\ rp_qty (heap L p) = Some a /\ rp_qty (heap L q) = Some b /\ a_int a * a_int b <= 0 /\ rp_asserted (heap L p) = false /\ rp_asserted (heap L q) = false /\
    rp_date (heap L p) = x_posted x /\ rp_date (heap L q) = x_posted x /\ (named rexm row fm (B "symbol") [] -> a_com a = a_com b /\ a_int a + a_int b = 0)).
  { intros from fa to ta (p & q & N & E & Hp & Hq) M Z. destruct (a_int fa <? 0).
    - exists q, p, ta, fa. rewrite Hp, Hq. split; [exact E|]. split; [auto|]. split; [reflexivity|]. split; [reflexivity|]. split; [lia|]. do 4 (split; [reflexivity|]). intros S. destruct (Z S). split; [auto|lia].
    - exists p, q, fa, ta. rewrite Hp, Hq. split; [exact E|]. split; [auto|]. split; [reflexivity|]. split; [reflexivity|]. split; [lia|]. do 4 (split; [reflexivity|]). exact Z. }
  destruct found as [[[a|] pt ns]|]; [|discriminate H|];
    destruct H as (x1 & note & nws & amt & currency & c & amount & to & symbol & E & _ & _ & _ & _ & _ & _ & _ & _ & _ & _ & _ & _ & Ec & _ & Hs & H); injection E as <-;
    (destruct H as [[_ (from & _ & T)]|(Ns & sc & q & quantity & given & from & _ & _ & _ & _ & _ & Q & _ & _ & T)];
     [eapply P; [exact T|cbn [opposite a_int]; nia|intros _; cbn [opposite a_int a_com]; split; [reflexivity|lia]]
     |eapply P; [exact T|exact Q|intros S; exfalso; apply Ns; eapply named_det; [exact Hs|exact S]]]).
Qed.
Print Assumptions C84_balanced.
(** a row with all it takes is read: it has values for all the names, a date, amounts that are numbers, known commodities, and
    there are rules for its account *)
Theorem C84_good_row_read : forall matches rexm comm children by_ofx_id by_id by_symbol fm ri row acct descr date note amt currency symbol quantity day c amount ars rs,
  (forall n v, In (n, v) (combine labels [acct; descr; date; amt; currency; symbol; quantity; note]) -> named rexm row fm n v) ->
  account_rules_for by_ofx_id ri acct = Ok ars -> expands (ri_sets ri) (ar_rules ars) rs ->
  date = format_date day -> 0 <= year_of day <= 9999 -> amt <> [] -> currency <> [] -> known by_id by_symbol currency c -> parse_amount amt c = Ok amount ->
  (symbol = [] \/ exists sc, known by_id by_symbol symbol sc /\ (quantity = [] \/ exists q, parse_amount quantity sc = Ok q)) ->
  exists N, forall fuel, (N <= fuel)%nat -> forall L, exists L' o, transaction_from matches rexm fuel comm children by_ofx_id by_id by_symbol L row fm (Some ri) = Ok (L', o).
Proof.
  intros matches rexm comm children by_ofx_id by_id by_symbol fm ri row acct descr date note amt currency symbol quantity day c amount ars rs V Ha X Hd Hy Na Nc Kc Pa Hs.
  assert (W : forall n v, In (n, v) (combine labels [acct; descr; date; amt; currency; symbol; quantity; note]) -> exists N, forall fuel, (N <= fuel)%nat -> value rexm row fm fuel n = Ok v) by (intros n v I; apply value_complete, V, I).
  cbn [combine labels] in W.
  destruct (W (B "account") acct ltac:(cbn; tauto)) as (N1 & W1). destruct (W (B "description") descr ltac:(cbn; tauto)) as (N2 & W2). destruct (W (B "date") date ltac:(cbn; tauto)) as (N3 & W3). destruct (W (B "amount") amt ltac:(cbn; tauto)) as (N4 & W4).
  destruct (W (B "currency") currency ltac:(cbn; tauto)) as (N5 & W5). destruct (W (B "symbol") symbol ltac:(cbn; tauto)) as (N6 & W6). destruct (W (B "quantity") quantity ltac:(cbn; tauto)) as (N7 & W7). destruct (W (B "note") note ltac:(cbn; tauto)) as (N8 & W8).
  destruct (rule_for_first matches _ _ _ X) as [N9 W9]. clear W V. exists (N1 + N2 + N3 + N4 + N5 + N6 + N7 + N8 + N9)%nat. intros fuel Hf L.
  assert (K : forall n k, known by_id by_symbol n k -> find_commodity by_id by_symbol n = Ok k) by (intros n k [E|[E1 E2]]; unfold find_commodity; [rewrite E|rewrite E1, E2]; reflexivity).
  unfold transaction_from. cbv zeta. rewrite W1, W2, W3, W4, W5, W6, W7, W8 by lia. cbn [bind]. rewrite Ha. cbn [bind]. rewrite W9 by lia. rewrite Hd, (proj2 (parse_ymd_ok (format_date day) day)) by auto. cbn [bind].
  assert (G : forall to notes, exists L' o, (match amt with
          | [] => Fail
          | _ =>
              do c <- (match currency with [] => Ok (comm to) | _ => find_commodity by_id by_symbol currency end);
              do amount <- must_parse_amount amt c;
              match symbol with
              | [] => let '(L, x) := post L (mkTx day [] (trim_ws descr) notes [] O) (account_for fuel comm children (a_com amount) (ar_account ars)) (account_for fuel comm children (a_com amount) to) amount None in Ok (L, Some x)
              | _ =>
                  do sc <- find_commodity by_id by_symbol symbol;
                  match quantity with
                  | [] => let '(L, x) := post L (mkTx day [] (trim_ws descr) notes [] O) (account_for fuel comm children (a_com amount) (ar_account ars)) (account_for fuel comm children (a_com amount) to) amount None in Ok (L, Some x)
                  | _ =>
                      do quantity <- must_parse_amount quantity sc;
                      let '(L, x) := post_conversion L (mkTx day [] (trim_ws descr) notes [] O) (account_for fuel comm children (a_com (if 0 <? Z.sgn (a_int quantity) * Z.sgn (a_int amount) then negated quantity else quantity)) (ar_account ars)) (if 0 <? Z.sgn (a_int quantity) * Z.sgn (a_int amount) then negated quantity else quantity) None (account_for fuel comm children (a_com amount) to) amount None in
                      Ok (L, Some x)
                  end
              end
          end) = Ok (L', o)).
  { clear -K Na Nc Kc Pa Hs. intros to notes. destruct amt as [|a0 amt]; [congruence|]. destruct currency as [|c0 currency]; [congruence|]. rewrite (K _ _ Kc). cbn [bind]. unfold must_parse_amount at 1. rewrite Pa. cbn [bind].
    destruct symbol as [|y0 symbol]; [destruct (post _ _ _ _ _ _); eexists; eexists; reflexivity|]. destruct Hs as [Hs|(sc & Ks & Hq)]; [discriminate|]. rewrite (K _ _ Ks). cbn [bind].
    destruct quantity as [|q0 quantity]; [destruct (post _ _ _ _ _ _); eexists; eexists; reflexivity|]. destruct Hq as [Hq|(q & Hq)]; [discriminate|]. unfold must_parse_amount. rewrite Hq. cbn [bind]. destruct (post_conversion _ _ _ _ _ _ _ _). eexists; eexists; reflexivity. }
  destruct (find (fun r : rule => matches (r_pattern r) (trim_ws descr)) rs) as [[[a|] pt ns]|]; [apply G|eexists; eexists; reflexivity|apply G].
Qed.
Print Assumptions C84_good_row_read.

(** ** C85 accounts *)
(** the accounts posted to hold the commodity of the posting, or are Unbalanced; one is that of the rules for the row's account or
    below it, the other that of the first matching rule or below it; accounts below take precedence *)
Theorem C85_accounts_partial : forall matches rexm comm children by_ofx_id by_id by_symbol fm ri L row x acct ars,
  named rexm row fm (B "account") acct -> account_rules_for by_ofx_id ri acct = Ok ars ->
  becomes_row matches rexm comm children by_ofx_id by_id by_symbol fm ri L row (Some x) ->
  exists p q a b root rs, Permutation (x_posts x) [p; q] /\ rp_qty (heap L p) = Some a /\ rp_qty (heap L q) = Some b /\
  holds_in children comm (ar_account ars) (a_com a) (rp_acc (heap L p)) /\ holds_in children comm root (a_com b) (rp_acc (heap L q)) /\
  expands (ri_sets ri) (ar_rules ars) rs /\
  ((exists r, first_match matches (x_desc x) rs (Some r) /\ r_account r = Some root) \/ (first_match matches (x_desc x) rs None /\ root = unbalanced)).
Proof.
  intros matches rexm comm children by_ofx_id by_id by_symbol fm ri L row x acct ars Va Ea (acct' & descr & ws & ars' & rs & found & H1 & H2 & H3 & H4 & H5 & H6 & H).
  assert (acct' = acct) by (eapply named_det; eassumption). subst acct'. assert (ars' = ars) by congruence. subst ars'.
  destruct found as [[[a|] pt ns]|]; [|discriminate H|];
    destruct H as (x1 & note & nws & amt & currency & c & amount & to & symbol & E & _ & Ed & _ & _ & _ & _ & _ & _ & _ & _ & _ & _ & Ec & Hto & Hs & H); injection E as <-; rewrite Ed;
    (assert (P : forall from fa ta, two_postings L x from fa to ta -> a_com ta = c -> holds_in children comm (ar_account ars) (a_com fa) from -> exists p q fa ta, Permutation (x_posts x) [p; q] /\ rp_qty (heap L p) = Some fa /\ rp_qty (heap L q) = Some ta /\ a_com ta = c /\ holds_in children comm (ar_account ars) (a_com fa) (rp_acc (heap L p)) /\ rp_acc (heap L q) = to);
      [intros from fa ta (p & q & N & E & Hp & Hq) C F; exists p, q, fa, ta; rewrite E, Hp, Hq; split; [destruct (a_int fa <? 0); [apply perm_swap|apply Permutation_refl]|]; auto|]);
    (assert (Q : exists p q fa ta, Permutation (x_posts x) [p; q] /\ rp_qty (heap L p) = Some fa /\ rp_qty (heap L q) = Some ta /\ a_com ta = c /\ holds_in children comm (ar_account ars) (a_com fa) (rp_acc (heap L p)) /\ rp_acc (heap L q) = to);
      [destruct H as [[_ (from & F & T)]|(Ns & sc & q & quantity & given & from & _ & _ & _ & _ & _ & Q & Cq & F & T)]; [eapply P; [exact T|exact Ec|rewrite Ec; exact F]|eapply P; [exact T|exact Ec|rewrite Cq; exact F]]|]);
    destruct Q as (p & q & fa & ta & Q1 & Q2 & Q3 & Q4 & Q5 & Q6); exists p, q, fa, ta.
  - exists a, rs. rewrite Q4, Q6. repeat (split; [assumption|]). left. exists (mkRule (Some a) pt ns). auto.
  - exists unbalanced, rs. rewrite Q4, Q6. repeat (split; [assumption|]). right. auto.
Qed.
Print Assumptions C85_accounts_partial.
(** that is: at or below the account meant, and of the right commodity *)
Theorem C85_commodity : forall children comm root c a, holds_in children comm root c a -> a = unbalanced \/ (under children root a /\ comm a = c).
Proof. intros children comm root c a [[H _]|(_ & H1 & H2 & _)]; auto. Qed.
Print Assumptions C85_commodity.
Theorem C85_found : forall children comm root c a b, holds_in children comm root c a -> under children root b -> comm b = c -> b <> unbalanced -> a <> unbalanced.
Proof. intros children comm root c a b [[H1 H2]|(H & _)] U C N; [|exact H]. exfalso. apply N, H2; assumption. Qed.
Print Assumptions C85_found.

(** an import to show these at work: the columns are account, description, date, amount, currency, symbol, quantity, note *)
Definition k_children (a : bytes) : list bytes := if eqb_bytes a (B "Auto") then [B "Auto:Gas"] else if eqb_bytes a (B "Broker") then [B "Broker:ABC"; B "Broker:Cash"] else [].
Definition k_abc : commodity := mkCommodity 9 (B "ABC") 0.
Definition k_comm (a : bytes) : commodity := if eqb_bytes a (B "Broker:ABC") then k_abc else if eqb_bytes a (B "Broker") then usd else cad.
Definition k_by_id (n : bytes) : option commodity := if eqb_bytes n (B "CAD") then Some cad else if eqb_bytes n (B "USD") then Some usd else None.
Definition k_by_symbol (n : bytes) : option commodity := if eqb_bytes n (B "abc.to") then Some k_abc else None.
Definition k_index : rindex := mkIndex [(B "42", mkARules (B "Bank") [ERule (mkRule (Some (B "Auto")) (B "SHELL") [B "fuel"]); ERule (mkRule None (B "MOVE") [])]); (B "7", mkARules (B "Broker") [ERule (mkRule (Some (B "Broker")) (B "BUY") [])])] [].
Definition k_matches (p s : bytes) : bool := eqb_bytes p s.
Definition k_noid (_ : bytes) : option bytes := None.
Definition k_run (fields : string) (rules : option crules) files := csv2coin k_matches k_rexm 3 k_comm k_children k_noid k_by_id k_by_symbol (B fields) [] rules files empty_ledger.
Definition k_row (l : list string) : list bytes := map B l.
Definition k_all : string := "0,1,2,3,4,5,6,7".
Definition k_p (a : string) (q : Z) (c : commodity) : posting := mkPosting (B a) (Some (mkAmount q c)) None [].
Definition k_rows : list (list bytes) := map k_row [["42"; "PAY"; "2024/02/29"; "12.50"; "CAD"; ""; ""; ""]; ["42"; " MOVE "; "2024/02/28"; "1"; ""; ""; ""; ""];
  ["7"; "BUY"; "2024/02/28"; "-30.00"; "CAD"; "abc.to"; "3"; "a  note"]; ["42"; "SHELL"; "2024/02/28"; "-45"; ""; ""; ""; ""]]%string.
Definition k_day (y m d : Z) : Z := go_date y m d.
Example C86_example : k_run k_all (Some (mkCRules [] (Some k_index))) [k_rows] =
  Ok [mkTransaction (k_day 2024 2 28) [] (B "BUY") [B "a note"] [k_p "Broker:ABC" 3 k_abc; k_p "Broker:Cash" (-3000) cad] 0;
      mkTransaction (k_day 2024 2 28) [] (B "SHELL") [B "fuel"] [k_p "Auto:Gas" 4500 cad; k_p "Bank" (-4500) cad] 0;
      mkTransaction (k_day 2024 2 29) [] (B "PAY") [] [k_p "Bank" 1250 cad; k_p "Unbalanced" (-1250) cad] 0].
Proof. vm_compute. reflexivity. Qed.
Example k_hypotheses : (forall id ars, account_rules_for k_noid k_index id = Ok ars -> exists rs, expands (ri_sets k_index) (ar_rules ars) rs) /\ forall a, levels k_children 3 a.
Proof.
  split.
  - intros id ars. unfold account_rules_for, k_noid. cbn [k_index ri_accounts alookup]. destruct (eqb_bytes id (B "42")); [intros [= <-]; eexists; repeat constructor|]. destruct (eqb_bytes id (B "7")); [intros [= <-]; eexists; repeat constructor|discriminate].
  - intros a c I. unfold k_children in I. destruct (eqb_bytes a (B "Auto")); [destruct I as [<-|[]]; intros d []|]. destruct (eqb_bytes a (B "Broker")); [destruct I as [<-|[<-|[]]]; intros d []|destruct I].
Qed.
(** in full the property (README.md: a sub-account is taken if the commodity does not match the account) fails: the account of the
    rule holds the commodity, still what is posted goes to an account below it *)
Theorem C85_child_taken_refuted : k_comm (B "Auto") = cad /\ k_run k_all (Some (mkCRules [] (Some k_index))) [[k_row ["42"; "SHELL"; "2024/02/28"; "-45"; "CAD"; ""; ""; ""]%string]] =
  Ok [mkTransaction (k_day 2024 2 28) [] (B "SHELL") [B "fuel"] [k_p "Auto:Gas" 4500 cad; k_p "Bank" (-4500) cad] 0].
Proof. split; vm_compute; reflexivity. Qed.
Print Assumptions C85_child_taken_refuted.
(** amounts with thousands separators stop the program *)
Theorem C84_thousands_refuted : k_run k_all (Some (mkCRules [] (Some k_index))) [[k_row ["42"; "PAY"; "2024/02/29"; "1,234.56"; "CAD"; ""; ""; ""]%string]] = Panic.
Proof. vm_compute. reflexivity. Qed.
Print Assumptions C84_thousands_refuted.
(** with a quantity but without known symbol: the import is given up *)
Theorem C84_unknown_symbol_refuted : k_run k_all (Some (mkCRules [] (Some k_index))) [[k_row ["42"; "PAY"; "2024/02/29"; "1"; "CAD"; "xyz"; "1"; ""]%string]] = Fail.
Proof. vm_compute. reflexivity. Qed.
Print Assumptions C84_unknown_symbol_refuted.

(** ** C86 every data row of every file, in order; the output by date *)
Theorem C86_import_partial : forall matches rexm fuel comm children by_ofx_id by_id by_symbol fields src srcs ri files L out,
  (forall id ars, account_rules_for by_ofx_id ri id = Ok ars -> exists rs, expands (ri_sets ri) (ar_rules ars) rs) -> (forall a, levels children fuel a) -> ledger_ok L ->
  (forall f r, In f files -> In r f -> r <> []) ->
  csv2coin matches rexm fuel comm children by_ofx_id by_id by_symbol fields src (Some (mkCRules srcs (Some ri))) files L = Ok out ->
  exists s L' datas os ys,
  (fields = [] /\ alookup src srcs = Some s \/ fields <> [] /\ exists fm, parse_fields fields = Ok fm /\ s = mkSource [] 0 fm) /\
  Forall2 (data_rows (so_skip s)) files datas /\
  Forall2 (becomes_row matches rexm comm children by_ofx_id by_id by_symbol (so_fields s) ri L') (concat datas) os /\
  out = map (as_written L') ys /\ Permutation (somes os) ys /\ StronglySorted (fun x y => x_posted x <= x_posted y) ys /\
  (forall d, filter (fun x => x_posted x =? d) ys = filter (fun x => x_posted x =? d) (somes os)) /\
  NoDup (flat_map x_posts ys) /\ (forall p, (p < nxt L)%nat -> heap L' p = heap L p).
Proof.
  intros matches rexm fuel comm children by_ofx_id by_id by_symbol fields src srcs ri files L out H1 H2 Hok Hne H. unfold csv2coin in H. cbn [cr_index cr_sources] in H.
  match type of H with bind ?m _ = _ => destruct m as [s| |] eqn:Es; try discriminate end. cbn [bind] in H.
  destruct (read_csvs matches rexm fuel comm children by_ofx_id by_id by_symbol L files s (Some ri)) as [[L' xs]| |] eqn:E; try discriminate. cbn [bind fst snd] in H. injection H as <-.
  destruct (read_csvs_spec _ _ _ _ _ _ _ _ _ H1 H2 s files L L' xs Hok Hne E) as (datas & D & (_ & _ & G) & os & B1 & -> & B3 & B4).
  exists s, L', datas, os, (stable_sort (tx_less L') (somes os)). split.
  { destruct fields as [|f0 fields].
    - left. split; [reflexivity|]. destruct src as [|s0 src]; [discriminate|]. destruct (alookup (s0 :: src) srcs); congruence.
    - right. split; [discriminate|]. destruct (parse_fields (f0 :: fields)) as [fm| |] eqn:Ef; try discriminate. injection Es as <-. exists fm. auto. }
  split; [exact D|]. split; [exact B1|]. split; [reflexivity|]. split; [apply stable_sort_perm|].
  assert (NA : forall x, In x (somes os) -> has_assertions L' x = false).
  { intros x I. unfold somes in I. apply in_flat_map in I as (o & Io & I). destruct o as [y|]; [|destruct I]. destruct I as [->|[]].
    assert (Bx : exists row, becomes_row matches rexm comm children by_ofx_id by_id by_symbol (so_fields s) ri L' row (Some x)). { clear -B1 Io. induction B1 as [|r o rs os H F IH]; [destruct Io|]. destruct Io as [->|Io]; [eauto|auto]. }
    destruct Bx as (row & Bx). apply C84_balanced in Bx as (p & q & a & b & Ep & _ & _ & _ & _ & A1 & A2 & _). unfold has_assertions. rewrite Ep. cbn [existsb]. rewrite A1, A2. reflexivity. }
  split. { pose proof (sorted_ledger_order L' (somes os)) as S. unfold in_ledger_order in S. clear -S. induction S as [|x l S IH F]; constructor; [exact IH|]. eapply Forall_impl; [|exact F]. cbn. intros y Hy. lia. }
  split.
  { intros d. pose proof (sorted_stable L' (somes os) d false) as S. erewrite filter_ext_in; [etransitivity; [exact S|]|].
    - apply filter_ext_in. intros x I. rewrite (NA x I). cbn. apply andb_true_r.
    - intros x I. cbv beta. rewrite (NA x); [cbn; rewrite andb_true_r; reflexivity|]. eapply Permutation_in; [apply Permutation_sym, stable_sort_perm|exact I]. }
  split; [|exact G]. eapply Permutation_NoDup; [|exact B3]. apply Permutation_flat_map, stable_sort_perm.
Qed.
Print Assumptions C86_import_partial.
(** in full the property fails. Without csv.rules the indexes on the command line are of no use: the program stops at the first row *)
Theorem C86_no_rules_refuted : forall matches rexm fuel comm children by_ofx_id by_id by_symbol fm s L row rows, so_skip s = O -> so_fields s = fm ->
  (exists a, value rexm row fm fuel (B "account") = Ok a) -> (exists d, value rexm row fm fuel (B "description") = Ok d) ->
  read_csvs matches rexm fuel comm children by_ofx_id by_id by_symbol L [row :: rows] s None = Panic.
Proof.
  intros matches rexm fuel comm children by_ofx_id by_id by_symbol fm s L row rows E0 <- (a & Ha) (d & Hd). cbn [read_csvs]. unfold read_csv. rewrite E0. cbn [skip_rows bind fst snd read_rows Nat.eqb orb].
  unfold transaction_from. cbv zeta. rewrite Ha, Hd. reflexivity.
Qed.
Print Assumptions C86_no_rules_refuted.
(** README.md: "-fields=3,0,2,6,1,7,8" for an import without notes: refused *)
Theorem C86_fields_refuted : parse_fields (B "3,0,2,6,1,7,8") = Fail /\ (exists fm, parse_fields (B "3,0,2,6,1,7,8,9") = Ok fm).
Proof. split; [vm_compute; reflexivity|]. eexists. vm_compute. reflexivity. Qed.
Print Assumptions C86_fields_refuted.
(** the indexes are those of the values in the order of README.md *)
Theorem C86_fields_order : forall rexm row l fm is, res_map atoi_ok (split_on ","%char l) = Ok is -> parse_fields l = Ok fm -> forall k n i, nth_error labels k = Some n -> nth_error is k = Some i -> 0 <= i ->
  forall v, nth_error row (Z.to_nat i) = Some v -> named rexm row fm n v.
Proof.
  intros rexm row l fm is Ei H k n i Hn Hi Hpos v Hv. unfold parse_fields in H. destruct (_ =? _)%nat; [|discriminate]. rewrite Ei in H. cbn [bind] in H. assert (Hf : fm = combine labels (map (fun i => [mkField (Some i) [] [] None]) is)) by congruence. clear H.
  assert (Ef : fields_of fm n = [mkField (Some i) [] [] None]).
  { rewrite Hf. unfold fields_of. erewrite in_alookup; [reflexivity| |].
    - assert (ND : NoDup labels) by (apply (NoDup_count_occ' (list_eq_dec Ascii.ascii_dec)); intros x I; repeat (destruct I as [<-|I]; [vm_compute; reflexivity|]); destruct I).
      revert ND. generalize labels. clear. intros ls. revert is. induction ls as [|a ls IH]; intros is ND; [constructor|]. destruct is as [|i is]; [constructor|]. cbn [map combine fst]. inversion ND; subst. constructor; [|apply IH; assumption].
      intros I. apply in_map_iff in I as ([x y] & E & I). cbn in E. subst x. apply in_combine_l in I. contradiction.
    - revert Hn Hi. generalize labels. clear. intros ls. revert k is. induction ls as [|a ls IH]; intros k is Hn Hi; [destruct k; discriminate|]. destruct is as [|j is]; [destruct k; discriminate|]. destruct k as [|k]; cbn in Hn, Hi; [injection Hn as ->; injection Hi as ->; left; reflexivity|right; eapply IH; eassumption]. }
  constructor. rewrite Ef. destruct v as [|c v]; [apply fo_next; [eapply df_column; [exact Hpos|exact Hv]|constructor]|apply fo_here; [eapply df_column; [exact Hpos|exact Hv]|discriminate]].
Qed.
Print Assumptions C86_fields_order.

(** ** C87 the sources of csv.rules are read as written *)
Theorem C87_sources_partial : forall find valid text lines rules_text ss index, scan_lines text = lines ++ scan_lines rules_text -> sources_are ss lines -> Forall (source_valid valid) ss ->
  read_rules find valid rules_text = Ok index ->
  exists r, read_csv_rules valid find text = Ok r /\ cr_index r = index /\
  forall n, match last_source n ss None with Some s => exists src, alookup n (cr_sources r) = Some src /\ stands_for s src | None => alookup n (cr_sources r) = None end.
Proof.
  intros find valid text lines rules_text ss index El Hs V Hr. unfold read_csv_rules. rewrite El.
  destruct (read_sources_run valid ss lines Hs V (S (List.length (lines ++ scan_lines rules_text))) (fun _ => None) [] (scan_lines rules_text)) as (srcs & G1 & G2); [rewrite app_length; lia|intros n; reflexivity|].
  rewrite G1. cbn [bind fst snd]. unfold read_rules in Hr. destruct (scan_lines rules_text) as [|l ls]; [injection Hr as <-; eexists; split; [reflexivity|]; split; [reflexivity|exact G2]|].
  destruct (scan_rules find valid l ls) as [ri| |]; try discriminate. injection Hr as <-. cbn [bind]. eexists. split; [reflexivity|]. split; [reflexivity|exact G2].
Qed.
Print Assumptions C87_sources_partial.
Definition dq (s : string) : string := String (Ascii.ascii_of_nat 34) (append s (String (Ascii.ascii_of_nat 34) "")).
Definition k_source_lines : list bytes := map B ["bank 2"; "  account 1"; "  description 3"; append "  amount 2 " (append (dq "$1") " VALUE = (\d+) "); append "  note " (dq "${note2} => ${note1}"); append "  symbol " (append (dq "USD") " description Interest|Dividend")]%string.
Definition k_csource : csource := mkCSource (B "bank") 2 [CColumn (B "account") 1; CColumn (B "description") 3; CExtract (B "amount") 2 (B "$1") (B "VALUE = (\d+)"); CDerive (B "note") (B "${note2} => ${note1}"); CWhen (B "symbol") (B "USD") (B "description") (B "Interest|Dividend")].
Lemma line_text_b' s : forallb lchar s = true -> line_text s.
Proof. apply line_text_b. Qed.
Ltac textb := first [split; [reflexivity|apply line_text_b'; reflexivity]|split; [discriminate|reflexivity]|discriminate|reflexivity].
Lemma unquoted_b s : match s with [] => false | _ => true end && forallb lchar s && negb (existsb (eqc quote) s) = true -> unquoted s.
Proof.
  rewrite !andb_true_iff. intros [[N L] Q]. split; [destruct s; [discriminate|discriminate]|]. split; [apply line_text_b', L|]. intros I. apply negb_true_iff in Q. assert (X : existsb (eqc quote) s = true) by (apply existsb_exists; exists quote; split; [exact I|apply L_Regex.eqc_same]). congruence.
Qed.
Lemma number_b ds i : match ds with [] => false | _ => true end && forallb is_digit ds && (i =? digits_val ds) && (i <=? int64_max) = true -> number ds i.
Proof. rewrite !andb_true_iff. intros [[[A B] C] D]. split; [destruct ds; discriminate|]. split; [exact B|]. split; lia. Qed.
Example C87_hypotheses : sources_are [k_csource] (k_source_lines ++ [B "---"]) /\ source_valid (fun _ => true) k_csource.
Proof.
  split.
  - apply sa_cons; [|apply sa_end]. apply (si (B "bank") (B " ") (B "2") 2 []); try textb; [apply number_b; reflexivity|].
    constructor; [apply (ci_column (B "  ") (B "account") (B " ") (B "1") 1); try textb; apply number_b; reflexivity|].
    constructor; [apply (ci_column (B "  ") (B "description") (B " ") (B "3") 3); try textb; apply number_b; reflexivity|].
    constructor; [apply (ci_extract (B "  ") (B "amount") (B " ") (B "2") 2 (B " ") (B "$1") (B " ") (B "VALUE = (\d+)") (B " ")); try textb; try (apply unquoted_b; reflexivity); apply number_b; reflexivity|].
    constructor; [apply (ci_derive (B "  ") (B "note") (B " ") (B "${note2} => ${note1}")); try textb; apply unquoted_b; reflexivity|].
    constructor; [apply (ci_when (B "  ") (B "symbol") (B " ") (B "USD") (B " ") (B "description") (B " ") (B "Interest|Dividend") []); try textb; apply unquoted_b; reflexivity|constructor].
  - repeat constructor.
Qed.
(** in full the property fails. Double quotes in an expression are taken for the end of the template *)
Theorem C87_quotes_refuted : exists r s, read_csv_rules (fun _ => true) rfind (nls ["bank 0"; append "  amount 2 " (append (dq "$1") (append " is " (append (dq "(\d+)") " CAD"))); "---"; "42 Assets:Bank:Savings"]%string) = Ok r /\
  alookup (B "bank") (cr_sources r) = Some s /\ fields_of (so_fields s) (B "amount") = [mkField (Some 2) (B "$1" ++ [quote] ++ B " is " ++ [quote] ++ B "(\d+)") [] (Some (B "CAD"))].
Proof.
  set (text := nls _). destruct (read_csv_rules (fun _ => true) rfind text) as [r| |] eqn:E; [|vm_compute in E; discriminate E|vm_compute in E; discriminate E]. vm_compute in E. injection E as <-. eexists. eexists. split; [reflexivity|]. split; vm_compute; reflexivity.
Qed.
Print Assumptions C87_quotes_refuted.
(** the number of lines to skip, optional in the expression for the line, is not; nor are the two sections (README.md: "Either section is
    optional"): without "---" the file is refused, without rules the first row stops the program; a blank at the end of a line too *)
Theorem C87_optional_refuted : forall find valid,
  read_csv_rules valid find (nls ["bank"; "  account 1"; "---"]%string) = Fail /\
  read_csv_rules valid find (nls ["bank 0"; "  account 1"]%string) = Fail /\
  (exists r, read_csv_rules valid find (nls ["bank 0"; "  account 1"; "---"]%string) = Ok r /\ cr_index r = None) /\
  read_csv_rules valid find (nls ["bank 0"; "  account 1 "; "---"]%string) = Fail /\
  read_csv_rules valid find (nls ["bank 0"; append "  note " (dq ""); "---"]%string) = Fail.
Proof. intros find valid. split; [vm_compute; reflexivity|]. split; [vm_compute; reflexivity|]. split; [eexists; split; [vm_compute; reflexivity|reflexivity]|]. split; vm_compute; reflexivity. Qed.
Print Assumptions C87_optional_refuted.
