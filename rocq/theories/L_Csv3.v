(** Rows into transactions. *)
From Verif Require Import Base M_Amount M_Date M_Parser M_Writer M_Names M_Ledger M_Rules M_Commands S_Amount S_Date S_Rules S_Books S_Commands L_Dec L_Amount L_Date L_Rules L_Resolve L_Move L_Words Properties_Rules L_Ofx2 M_Csv S_Csv L_Csv L_Csv2.

Lemma parse_com s c a : parse_amount s c = Ok a -> a_com a = c.
Proof.
  unfold parse_amount. destruct (split_on "."%char s) as [|s0 [|s1 [|]]]; try discriminate.
  - destruct (parse_int64 s0) as [i| |]; try discriminate. cbn [bind]. destruct (0 <? c_dec c)%nat; [|intros [= <-]; reflexivity]. destruct (big_pow10 (c_dec c)); try discriminate. intros [= <-]. reflexivity.
  - destruct (parse_int64 (s0 ++ s1)) as [i| |]; try discriminate. cbn [bind]. destruct (negb _); [|intros [= <-]; reflexivity]. destruct (big_pow10 (c_dec c)); try discriminate. cbn [bind]. destruct (big_pow10 (List.length s1)); try discriminate. intros [= <-]. reflexivity.
Qed.
Lemma must_parse s c a : must_parse_amount s c = Ok a -> parse_amount s c = Ok a /\ a_com a = c.
Proof. unfold must_parse_amount. destruct (parse_amount s c) as [b| |] eqn:E; try discriminate. intros [= <-]. split; [reflexivity|eapply parse_com, E]. Qed.

Section Rows.
Variable matches : bytes -> bytes -> bool.
Variable rexm : bytes -> bytes -> option (list bytes).
Variable fuel : nat.
Variable comm : bytes -> commodity.
Variable children : bytes -> list bytes.
Variable by_ofx_id : bytes -> option bytes.
Variable by_id by_symbol : bytes -> option commodity.
Variable fm : fmap.
Variable ri : rindex.
Hypothesis Hrules : forall id ars, account_rules_for by_ofx_id ri id = Ok ars -> exists rs, expands (ri_sets ri) (ar_rules ars) rs.
Hypothesis Hlevels : forall a, levels children fuel a.
Local Notation becomes_row := (becomes_row matches rexm comm children by_ofx_id by_id by_symbol fm ri).
Local Notation transaction_from := (transaction_from matches rexm fuel comm children by_ofx_id by_id by_symbol).

Lemma find_known n c : find_commodity by_id by_symbol n = Ok c -> known by_id by_symbol n c.
Proof. unfold find_commodity, known. destruct (by_id n); [intros [= <-]; auto|]. destruct (by_symbol n); [intros [= <-]; auto|discriminate]. Qed.
Lemma posted_two L x from fa to ta L' x' : ledger_ok L -> x_posts x = [] -> post_conversion L x from fa None to ta None = (L', x') ->
  grows L L' /\ between_n (nxt L) (nxt L') (Some x') /\ two_postings L' x' from fa to ta /\ x_posted x' = x_posted x /\ x_code x' = x_code x /\ x_desc x' = x_desc x /\ x_notes x' = x_notes x.
Proof.
  intros Hok Hx E. pose proof (post_spec L x from fa None to ta None Hok) as P. rewrite E in P. cbn [fst snd] in P. destruct P as (P1 & P2 & P3 & P4 & P5 & P6 & P7 & P8 & P9 & P10 & _). rewrite Hx in P3. cbn [app] in P3.
  split; [split; [lia|split; [exact P1|exact P10]]|]. split.
  { cbn [between_n]. rewrite P3, P2. split; [destruct (a_int fa <? 0); repeat constructor; cbn; lia|]. intros p I. destruct (a_int fa <? 0); destruct I as [<-|[<-|[]]]; lia. }
  split; [|auto]. exists (nxt L), (S (nxt L)). split; [lia|]. split; [exact P3|]. rewrite P4. split; [exact P8|exact P9].
Qed.
Lemma row_spec L row L' o : ledger_ok L -> transaction_from L row fm (Some ri) = Ok (L', o) ->
  grows L L' /\ between_n (nxt L) (nxt L') o /\ becomes_row L' row o.
Proof.
  intros Hok H. unfold M_Csv.transaction_from in H. cbv zeta in H.
  destruct (value rexm row fm fuel (B "account")) as [acct| |] eqn:Va; try discriminate. cbn [bind] in H.
  destruct (value rexm row fm fuel (B "description")) as [descr| |] eqn:Vd; try discriminate. cbn [bind] in H.
  destruct (account_rules_for by_ofx_id ri acct) as [ars| |] eqn:Ea; try discriminate. cbn [bind] in H.
  destruct (Hrules _ _ Ea) as (rs & X).
  destruct (rule_for matches fuel (ri_sets ri) (trim_ws descr) (ar_rules ars)) as [found|] eqn:Ef; [|discriminate]. apply (rule_for_sound _ _ _ _ X) in Ef.
  assert (Fm : first_match matches (trim_ws descr) rs found) by (rewrite Ef; apply find_first). clear Ef.
  apply value_sound in Va, Vd.
  assert (G : forall to notes, (do date <- value rexm row fm fuel (B "date");
          do posted <- parse_ymd date;
          do note <- value rexm row fm fuel (B "note");
          do amt <- value rexm row fm fuel (B "amount");
          match amt with
          | [] => Fail
          | _ =>
              do currency <- value rexm row fm fuel (B "currency");
              do c <- (match currency with [] => Ok (comm to) | _ => find_commodity by_id by_symbol currency end);
              do amount <- must_parse_amount amt c;
              do symbol <- value rexm row fm fuel (B "symbol");
              match symbol with
              | [] => let '(L, x) := post L (mkTx posted [] (trim_ws descr) (match trim_ws note with [] => notes | n => [n] end) [] O) (account_for fuel comm children (a_com amount) (ar_account ars)) (account_for fuel comm children (a_com amount) to) amount None in Ok (L, Some x)
              | _ =>
                  do sc <- find_commodity by_id by_symbol symbol;
                  do q <- value rexm row fm fuel (B "quantity");
                  match q with
                  | [] => let '(L, x) := post L (mkTx posted [] (trim_ws descr) (match trim_ws note with [] => notes | n => [n] end) [] O) (account_for fuel comm children (a_com amount) (ar_account ars)) (account_for fuel comm children (a_com amount) to) amount None in Ok (L, Some x)
                  | _ =>
                      do quantity <- must_parse_amount q sc;
                      let '(L, x) := post_conversion L (mkTx posted [] (trim_ws descr) (match trim_ws note with [] => notes | n => [n] end) [] O)
                        (account_for fuel comm children (a_com (if 0 <? Z.sgn (a_int quantity) * Z.sgn (a_int amount) then negated quantity else quantity)) (ar_account ars)) (if 0 <? Z.sgn (a_int quantity) * Z.sgn (a_int amount) then negated quantity else quantity) None (account_for fuel comm children (a_com amount) to) amount None in
                      Ok (L, Some x)
                  end
              end
          end) = Ok (L', o) ->
     grows L L' /\ between_n (nxt L) (nxt L') o /\
      exists x note nws amt currency c amount to' symbol,
      o = Some x /\ x_code x = [] /\ x_desc x = join (B " ") (words descr) /\
      named rexm row fm (B "date") (format_date (x_posted x)) /\ 0 <= year_of (x_posted x) <= 9999 /\
      named rexm row fm (B "note") note /\ spaced note nws /\ x_notes x = match nws with [] => notes | _ => [join (B " ") nws] end /\
      named rexm row fm (B "amount") amt /\ amt <> [] /\
      named rexm row fm (B "currency") currency /\ (currency = [] /\ c = comm to \/ currency <> [] /\ known by_id by_symbol currency c) /\
      parse_amount amt c = Ok amount /\ a_com amount = c /\
      holds_in children comm to c to' /\
      named rexm row fm (B "symbol") symbol /\
      ((symbol = [] \/ symbol <> [] /\ (exists sc, known by_id by_symbol symbol sc) /\ named rexm row fm (B "quantity") []) /\
       (exists from, holds_in children comm (ar_account ars) c from /\ two_postings L' x from amount to' (opposite amount))
       \/
       symbol <> [] /\
       exists sc q quantity given from, known by_id by_symbol symbol sc /\ named rexm row fm (B "quantity") q /\ q <> [] /\ parse_amount q sc = Ok given /\
         (quantity = given \/ quantity = opposite given /\ 0 < a_int given * a_int amount) /\
         a_int quantity * a_int amount <= 0 /\ a_com quantity = sc /\
         holds_in children comm (ar_account ars) sc from /\ two_postings L' x from quantity to' amount)).
  { clear H Fm Va Vd Ea X. intros to notes H.
    destruct (value rexm row fm fuel (B "date")) as [date| |] eqn:Vt; try discriminate. cbn [bind] in H.
    destruct (parse_ymd date) as [posted| |] eqn:Ep; try discriminate. cbn [bind] in H. apply parse_ymd_ok in Ep as [-> Hy].
    destruct (value rexm row fm fuel (B "note")) as [note| |] eqn:Vn; try discriminate. cbn [bind] in H.
    destruct (value rexm row fm fuel (B "amount")) as [amt| |] eqn:Vm; try discriminate. cbn [bind] in H.
    destruct amt as [|m0 amt]; [discriminate|].
    destruct (value rexm row fm fuel (B "currency")) as [currency| |] eqn:Vc; try discriminate. cbn [bind] in H.
    destruct (match currency with [] => Ok (comm to) | _ => find_commodity by_id by_symbol currency end) as [c| |] eqn:Ec; try discriminate. cbn [bind] in H.
    destruct (must_parse_amount (m0 :: amt) c) as [amount| |] eqn:Em; try discriminate. cbn [bind] in H. apply must_parse in Em as [Em Emc].
    destruct (value rexm row fm fuel (B "symbol")) as [symbol| |] eqn:Vs; try discriminate. cbn [bind] in H.
    apply value_sound in Vt, Vn, Vm, Vc, Vs.
    assert (Hc : currency = [] /\ c = comm to \/ currency <> [] /\ known by_id by_symbol currency c) by (destruct currency; [left; split; congruence|right; split; [discriminate|apply find_known, Ec]]).
    set (x0 := mkTx posted [] (trim_ws descr) (match trim_ws note with [] => notes | n => [n] end) [] O) in *.
    assert (Notes : x_notes x0 = match words note with [] => notes | _ => [join (B " ") (words note)] end).
    { subst x0. cbn [x_notes]. unfold trim_ws. pose proof (spaced_texts _ _ (spaced_words note)) as W. destruct (words note) as [|w ws]; [reflexivity|]. inversion W as [|? ? Ww _]; subst. destruct (join (B " ") (w :: ws)) as [|z zs] eqn:Ej; [|reflexivity]. exfalso.
      destruct Ww as [Nw _]. destruct w as [|w0 w]; [congruence|]. destruct ws; discriminate Ej. }
    rewrite Emc in H.
    assert (Plain : forall sy, named rexm row fm (B "symbol") sy -> (sy = [] \/ sy <> [] /\ (exists sc, known by_id by_symbol sy sc) /\ named rexm row fm (B "quantity") []) ->
      (let '(L, x) := post L x0 (account_for fuel comm children c (ar_account ars)) (account_for fuel comm children c to) amount None in Ok (L, Some x)) = Ok (L', o) ->
      grows L L' /\ between_n (nxt L) (nxt L') o /\ exists x note nws amt currency c amount to' symbol,
      o = Some x /\ x_code x = [] /\ x_desc x = join (B " ") (words descr) /\
      named rexm row fm (B "date") (format_date (x_posted x)) /\ 0 <= year_of (x_posted x) <= 9999 /\
      named rexm row fm (B "note") note /\ spaced note nws /\ x_notes x = match nws with [] => notes | _ => [join (B " ") nws] end /\
      named rexm row fm (B "amount") amt /\ amt <> [] /\
      named rexm row fm (B "currency") currency /\ (currency = [] /\ c = comm to \/ currency <> [] /\ known by_id by_symbol currency c) /\
      parse_amount amt c = Ok amount /\ a_com amount = c /\
      holds_in children comm to c to' /\
      named rexm row fm (B "symbol") symbol /\
      ((symbol = [] \/ symbol <> [] /\ (exists sc, known by_id by_symbol symbol sc) /\ named rexm row fm (B "quantity") []) /\
       (exists from, holds_in children comm (ar_account ars) c from /\ two_postings L' x from amount to' (opposite amount))
       \/
       symbol <> [] /\
       exists sc q quantity given from, known by_id by_symbol symbol sc /\ named rexm row fm (B "quantity") q /\ q <> [] /\ parse_amount q sc = Ok given /\
         (quantity = given \/ quantity = opposite given /\ 0 < a_int given * a_int amount) /\
         a_int quantity * a_int amount <= 0 /\ a_com quantity = sc /\
         holds_in children comm (ar_account ars) sc from /\ two_postings L' x from quantity to' amount)).
    { intros sy Hs Hq P. unfold post in P. destruct (post_conversion L x0 (account_for fuel comm children c (ar_account ars)) amount None (account_for fuel comm children c to) (negated amount) None) as [L1 x1] eqn:E1. injection P as <- <-.
      destruct (posted_two L x0 _ _ _ _ _ _ Hok eq_refl E1) as (P1 & P2 & P3 & P4 & P5 & P6 & P7). split; [exact P1|]. split; [exact P2|]. exists x1, note, (words note), (m0 :: amt), currency, c, amount, (account_for fuel comm children c to), sy.
      split; [reflexivity|]. split; [exact P5|]. split; [exact P6|]. rewrite P4. split; [exact Vt|]. split; [exact Hy|]. split; [exact Vn|]. split; [apply spaced_words|]. split; [rewrite P7; exact Notes|]. split; [exact Vm|]. split; [discriminate|]. split; [exact Vc|]. split; [exact Hc|]. split; [exact Em|]. split; [exact Emc|].
      split; [apply account_for_spec, Hlevels|]. split; [exact Hs|]. left. split; [exact Hq|]. eexists. split; [apply account_for_spec, Hlevels|exact P3]. }
    destruct symbol as [|y0 symbol]; [apply (Plain [] Vs); [left; reflexivity|exact H]|].
    destruct (find_commodity by_id by_symbol (y0 :: symbol)) as [sc| |] eqn:Es; try discriminate. cbn [bind] in H. apply find_known in Es.
    destruct (value rexm row fm fuel (B "quantity")) as [q| |] eqn:Vq; try discriminate. cbn [bind] in H. apply value_sound in Vq.
    destruct q as [|q0 q]; [apply (Plain _ Vs); [right; split; [discriminate|]; split; [exists sc; exact Es|exact Vq]|exact H]|]. clear Plain.
    destruct (must_parse_amount (q0 :: q) sc) as [given| |] eqn:Eq; try discriminate. cbn [bind] in H. apply must_parse in Eq as [Eq Eqc].
    set (quantity := if 0 <? Z.sgn (a_int given) * Z.sgn (a_int amount) then negated given else given) in *.
    assert (Hqu : (quantity = given \/ quantity = opposite given /\ 0 < a_int given * a_int amount) /\ a_int quantity * a_int amount <= 0 /\ a_com quantity = sc).
    { subst quantity. rewrite <- Z.sgn_mul. destruct (Z.ltb_spec 0 (Z.sgn (a_int given * a_int amount))) as [Q|Q].
      - assert (K : 0 < a_int given * a_int amount) by (pose proof (Z.sgn_spec (a_int given * a_int amount)); lia). clear Q. rename K into Q. cbn [negated a_int a_com]. split; [right; split; [reflexivity|exact Q]|]. split; [lia|exact Eqc].
      - split; [left; reflexivity|]. split; [|exact Eqc]. pose proof (Z.sgn_spec (a_int given * a_int amount)); lia. }
    destruct Hqu as (Q1 & Q2 & Q3).
    destruct (post_conversion L x0 (account_for fuel comm children (a_com quantity) (ar_account ars)) quantity None (account_for fuel comm children c to) amount None) as [L1 x1] eqn:E1. injection H as <- <-.
    destruct (posted_two L x0 _ _ _ _ _ _ Hok eq_refl E1) as (P1 & P2 & P3 & P4 & P5 & P6 & P7). split; [exact P1|]. split; [exact P2|]. exists x1, note, (words note), (m0 :: amt), currency, c, amount, (account_for fuel comm children c to), (y0 :: symbol).
    split; [reflexivity|]. split; [exact P5|]. split; [exact P6|]. rewrite P4. split; [exact Vt|]. split; [exact Hy|]. split; [exact Vn|]. split; [apply spaced_words|]. split; [rewrite P7; exact Notes|]. split; [exact Vm|]. split; [discriminate|]. split; [exact Vc|]. split; [exact Hc|]. split; [exact Em|]. split; [exact Emc|].
    split; [apply account_for_spec, Hlevels|]. split; [exact Vs|]. right. split; [discriminate|]. exists sc, (q0 :: q), quantity, given. eexists. split; [exact Es|]. split; [exact Vq|]. split; [discriminate|]. split; [exact Eq|]. split; [exact Q1|]. split; [exact Q2|]. split; [exact Q3|]. split; [|exact P3]. rewrite Q3. apply account_for_spec, Hlevels. }
  unfold S_Csv.becomes_row.
  destruct found as [[[a|] pt ns]|].
  - destruct (G a ns H) as (G1 & G2 & G3). split; [exact G1|]. split; [exact G2|]. exists acct, descr, (words descr), ars, rs, (Some (mkRule (Some a) pt ns)). split; [exact Va|]. split; [exact Vd|]. split; [apply spaced_words|]. split; [exact Ea|]. split; [exact X|]. split; [exact Fm|]. exact G3.
  - injection H as <- <-. split; [apply grows_refl, Hok|]. split; [exact I|]. exists acct, descr, (words descr), ars, rs, (Some (mkRule None pt ns)). split; [exact Va|]. split; [exact Vd|]. split; [apply spaced_words|]. split; [exact Ea|]. split; [exact X|]. split; [exact Fm|]. reflexivity.
  - destruct (G unbalanced [] H) as (G1 & G2 & G3). split; [exact G1|]. split; [exact G2|]. exists acct, descr, (words descr), ars, rs, None. split; [exact Va|]. split; [exact Vd|]. split; [apply spaced_words|]. split; [exact Ea|]. split; [exact X|]. split; [exact Fm|]. exact G3.
Qed.
End Rows.
