(** Model of parser.go and of the parse functions of transaction.go, account.go, commodity.go, price.go,
    include.go and test.go. *)
From Verif Require Import Base M_Amount M_Regex M_Date.

(** ** Lines: bufio.Scanner with ScanLines (split at '\n', drop one trailing '\r', no empty last line).
    Simplification: the 64KiB limit on a line is not modelled. *)
Definition drop_cr (l : bytes) : bytes :=
  match rev l with c :: r => if code c =? 13 then rev r else l | [] => l end.
Definition nl : ascii := chr 10.
Fixpoint drop_last_empty (l : list bytes) : list bytes :=
  match l with [] => [] | [[]] => [] | x :: r => x :: drop_last_empty r end.
Definition scan_lines (text : bytes) : list bytes := map drop_cr (drop_last_empty (split_on nl text)).

(** bytes.TrimSpace is empty. Simplification: only ASCII white space (incl. '\v') is trimmed. *)
Definition is_ascii_space (c : ascii) : bool := is_space c || (code c =? 11).
Definition blank (l : bytes) : bool := forallb is_ascii_space l.
(** unicode.IsSpace(rune(line[0])) *)
Definition uni_space (c : ascii) : bool := is_ascii_space c || (code c =? 133) || (code c =? 160).
(** strings.TrimLeft / TrimRight with " \t" *)
Definition is_blank_char (c : ascii) : bool := (code c =? 32) || (code c =? 9).
Fixpoint trim_left (s : bytes) : bytes :=
  match s with c :: r => if is_blank_char c then trim_left r else s | [] => [] end.
Definition trim_right (s : bytes) : bytes := rev (trim_left (rev s)).
Fixpoint has_prefix (p s : bytes) : bool :=
  match p, s with
  | [], _ => true
  | a :: p', b :: s' => eqc a b && has_prefix p' s'
  | _, [] => false
  end.

(** ** Regular expressions *)
(** commodity.go:137 *)
Definition rx_commodity : rx := RGrp "commodity" (RSeq (RSet is_alpha) (RStar w_)).
(** amount.go:14 *)
Definition rx_amount : rx :=
  rseq [RGrp "amount" (rseq [ROpt (rchar "-"%char); rplus d_;
                             ROpt (RGrp "decimals" (RSeq (rchar "."%char) (rplus d_)))]);
        rplus s_; rx_commodity].
(** account.go:82-83 *)
Definition is_acc (c : ascii) : bool := is_word c || eqc c "/"%char || eqc c "-"%char.
Definition rx_seg : rx := RSeq (RSet is_alpha) (RStar (RSet is_acc)).
Definition rx_account : rx := RGrp "account" (RSeq rx_seg (RStar (RSeq (rchar ":"%char) rx_seg))).
Definition semi_note (n : string) : rx := rseq [rchar ";"%char; ROpt (rchar " "%char); RGrp n (RStar any_)].
(** transaction.go:119 *)
Definition rx_transaction : rx :=
  rseq [rx_date;
        ROpt (rseq [rplus s_; rchar "("%char; RGrp "code" (rplus w_); rchar ")"%char]);
        ROpt (RSeq (rplus s_) (RGrp "description" (RSeq S_ (RStar (RSet (fun c => negb (eqc c ";"%char)))))));
        ROpt (semi_note "shortNote")].
Definition transactionREX : rx := rex_compile rx_transaction.
(** transaction.go:120-124 *)
Definition rx_posting : rx :=
  RAlt (rseq [rplus s_; rx_account;
              ROpt (rseq [rplus s_; rx_amount; ROpt (rseq [rplus s_; rchar "="%char; rplus s_; rx_amount])]);
              ROpt (RSeq (RStar s_) (semi_note "shortNote"))])
       (RSeq (rplus s_) (semi_note "note")).
Definition postingREX : rx := rex_compile rx_posting.
(** account.go:84-92 *)
Definition accountHeadREX : rx := rex_compile (rseq [rlit (B "account"); rplus s_; rx_account]).
Definition accountBodyREX : rx := rex_compile (ralt
  [rseq [rplus s_; rlit (B "note"); rplus s_; RGrp "note" (RSeq S_ (rplus any_))];
   rseq [rplus s_; rlit (B "commodity"); rplus s_; rx_commodity];
   rseq [rplus s_; rlit (B "closed"); rplus s_; rx_date];
   rseq [rplus s_; rlit (B "ofx_bankid"); rplus s_; RGrp "ofx_bankid" (rplus d_)];
   rseq [rplus s_; rlit (B "ofx_acctid"); rplus s_; RGrp "ofx_acctid" (rplus d_)];
   rseq [rplus s_; rlit (B "csv_acctid"); rplus s_; RGrp "csv_acctid" (rplus w_)]]).
(** commodity.go:138-145 *)
Definition commodityHeadREX : rx := rex_compile (rseq [rlit (B "commodity"); rplus s_; rx_commodity]).
Definition commodityBodyREX : rx := rex_compile (ralt
  [rseq [rplus s_; rlit (B "note"); rplus s_; RGrp "note" (rplus any_)];
   rseq [rplus s_; rlit (B "format"); rplus s_; RGrp "format" rx_amount];
   rseq [rplus s_; RGrp "nomarket" (rlit (B "nomarket")); RStar s_];
   rseq [rplus s_; rlit (B "symbol"); rplus s_; RGrp "symbol" (rplus (RSet (fun c => is_word c || eqc c "."%char)))];
   rseq [rplus s_; RGrp "default" (rlit (B "default")); RStar s_]]).
(** price.go:41 *)
Definition priceREX : rx := rex_compile (rseq [rlit (B "P "); rx_date; rplus s_; rx_commodity; rplus s_; rx_amount]).
(** include.go:25, test.go:17 *)
Definition includeHead : rx := rseq [rlit (B "include"); rplus s_; RGrp "1" (rplus any_)].
Definition testHead : rx := rseq [rlit (B "test"); rplus s_; RGrp "1" (rplus any_)].
(** match == nil gives the empty map, in which every lookup is "" *)
Definition match_caps (r : rx) (l : bytes) : caps := match rsearch r l with Some (_, cs) => cs | None => [] end.

(** ** Entries *)
(** posting.go:10-21 before resolution; the file part of locations is left out, Tags are a function of the notes (M_Tags) *)
Record posting := mkPosting {
  ps_account : bytes; ps_quantity : option amount; ps_balance : option amount; ps_notes : list bytes }.
(** transaction.go:18-30 *)
Record transaction := mkTransaction {
  t_posted : Z; t_code : bytes; t_desc : bytes; t_notes : list bytes; t_postings : list posting; t_line : nat }.
(** account.go:18-41, what the parser fills in *)
Record paccount := mkPAccount {
  pa_name : bytes; pa_desc : bytes; pa_commodity : bytes; pa_closed : option Z;
  pa_bankid : bytes; pa_acctid : bytes; pa_csvid : bytes; pa_line : nat }.
(** commodity.go:22-38 *)
Record pcommodity := mkPCommodity {
  pc_id : bytes; pc_name : bytes; pc_dec : nat; pc_nomarket : bool; pc_symbol : bytes; pc_line : nat }.
(** price.go:13-23 *)
Record pprice := mkPPrice { pp_time : Z; pp_commodity : bytes; pp_currency : bytes; pp_value : amount; pp_line : nat }.
(** test.go:9-15 *)
Record ptest := mkPTest { pt_cmd : bytes; pt_result : bytes; pt_line : nat }.
Inductive item :=
| ITransaction (t : transaction) | IAccount (a : paccount) | ICommodity (c : pcommodity)
| IPrice (p : pprice) | ITest (t : ptest) | IInclude (path : bytes) (line : nat).
Definition item_line (i : item) : nat :=
  match i with
  | ITransaction t => t_line t | IAccount a => pa_line a | ICommodity c => pc_line c
  | IPrice p => pp_line p | ITest t => pt_line t | IInclude _ n => n
  end.

(** Globals a parse depends on: Commodities, DefaultCommodityId and today *)
Record env := mkEnv { e_find : bytes -> option commodity; e_default : bytes; e_today : today }.
(** coin.go:55-60 MustFindCommodity panics *)
Definition must_find (e : env) (id : bytes) : res commodity :=
  match e_find e id with Some c => Ok c | None => Panic end.

(** parser.go:10-14: the head of [p_lines] is the current line, number [p_nr]; no lines = finished
    (then Go's lineNr stays at the last line, the model counts on; it is not used any more) *)
Record parser := mkParser { p_lines : list bytes; p_nr : nat }.
(** parser.go:19-23 *)
Definition new_parser (text : bytes) : parser := mkParser (scan_lines text) 1.
(** parser.go:25-31 *)
Definition scan (p : parser) : parser := mkParser (tl (p_lines p)) (S (p_nr p)).

Definition add_last_notes (ps : list posting) (ns : list bytes) : res (list posting) :=
  match rev ps with
  | [] => Panic      (* s == nil *)
  | s :: r => Ok (rev (mkPosting (ps_account s) (ps_quantity s) (ps_balance s) (ps_notes s ++ ns) :: r))
  end.
Definition short_note (cs : caps) : list bytes :=
  match trim_left (cap "shortNote" cs) with [] => [] | n => [n] end.

(** transaction.go:141-191, the loop; result: transaction notes, postings, pending notes, rest *)
Fixpoint tx_loop (e : env) (lines : list bytes) (nr : nat) (tn : list bytes) (ps : list posting) (pend : list bytes)
  : res (list bytes * list posting * list bytes * parser) :=
  match lines with
  | [] => Ok (tn, ps, pend, mkParser [] nr)
  | l :: rest =>
      match rsearch postingREX l with
      | None => Ok (tn, ps, pend, mkParser lines nr)
      | Some (_, cs) =>
          match cap "note" cs with
          | _ :: _ => tx_loop e rest (S nr) tn ps (pend ++ [cap "note" cs])
          | [] =>
              do q <- match cap "amount1" cs with
                      | [] => Ok None
                      | amt => do c <- must_find e (cap "commodity1" cs); do a <- parse_amount amt c; Ok (Some a)
                      end;
              do x <- match pend, ps with
                      | [], _ => Ok (tn, ps)
                      | _, [] => Ok (tn ++ pend, ps)
                      | _, _ => do ps' <- add_last_notes ps pend; Ok (tn, ps')
                      end;
              do b <- match cap "amount2" cs with
                      | [] => Ok None
                      | bal => do c <- must_find e (cap "commodity2" cs); do a <- parse_amount bal c; Ok (Some a)
                      end;
              tx_loop e rest (S nr) (fst x) (snd x ++ [mkPosting (cap "account" cs) q b (short_note cs)]) []
          end
      end
  end.
(** transaction.go:126-201 parseTransaction (the current line exists) *)
Definition parse_transaction (e : env) (line : bytes) (rest : list bytes) (nr : nat) : res (transaction * parser) :=
  match rsearch transactionREX line with
  | None => Fail
  | Some (_, cs) =>
      do posted <- must_parse_date (e_today e) cs;
      do r <- tx_loop e rest (S nr) (short_note cs) [] [];
      let '(tn, ps, pend, p) := r in
      do ps' <- match pend with [] => Ok ps | _ => add_last_notes ps pend end;
      Ok (mkTransaction posted (cap "code" cs) (trim_right (cap "description" cs)) tn ps' nr, p)
  end.

Definition body_ends (l : bytes) : bool :=
  blank l || match l with c :: _ => negb (uni_space c) | [] => true end.
(** account.go:119-149 *)
Fixpoint account_loop (e : env) (lines : list bytes) (nr : nat) (a : paccount) : res (paccount * parser) :=
  match lines with
  | [] => Ok (a, mkParser [] nr)
  | l :: rest =>
      if body_ends l then Ok (a, mkParser lines nr)
      else match rsearch accountBodyREX l with
           | None => Fail
           | Some (_, cs) =>
               do a' <-
                 match cap "note" cs, cap "commodity" cs, cap "date" cs, cap "ofx_bankid" cs, cap "ofx_acctid" cs, cap "csv_acctid" cs with
                 | (_ :: _) as n, _, _, _, _, _ => Ok (mkPAccount (pa_name a) n (pa_commodity a) (pa_closed a) (pa_bankid a) (pa_acctid a) (pa_csvid a) (pa_line a))
                 | [], (_ :: _) as c, _, _, _, _ => Ok (mkPAccount (pa_name a) (pa_desc a) c (pa_closed a) (pa_bankid a) (pa_acctid a) (pa_csvid a) (pa_line a))
                 | [], [], _ :: _, _, _, _ =>
                     do d <- must_parse_date (e_today e) cs;
                     Ok (mkPAccount (pa_name a) (pa_desc a) (pa_commodity a) (Some d) (pa_bankid a) (pa_acctid a) (pa_csvid a) (pa_line a))
                 | [], [], [], (_ :: _) as i, _, _ => Ok (mkPAccount (pa_name a) (pa_desc a) (pa_commodity a) (pa_closed a) i (pa_acctid a) (pa_csvid a) (pa_line a))
                 | [], [], [], [], (_ :: _) as i, _ => Ok (mkPAccount (pa_name a) (pa_desc a) (pa_commodity a) (pa_closed a) (pa_bankid a) i (pa_csvid a) (pa_line a))
                 | [], [], [], [], [], (_ :: _) as i => Ok (mkPAccount (pa_name a) (pa_desc a) (pa_commodity a) (pa_closed a) (pa_bankid a) (pa_acctid a) i (pa_line a))
                 | [], [], [], [], [], [] => Ok a
                 end;
               account_loop e rest (S nr) a'
           end
  end.
Definition parse_account (e : env) (line : bytes) (rest : list bytes) (nr : nat) : res (paccount * parser) :=
  let cs := match_caps accountHeadREX line in
  account_loop e rest (S nr) (mkPAccount (cap "account" cs) [] (e_default e) None [] [] [] nr).

(** commodity.go:147-181; the second component is DefaultCommodityId *)
Fixpoint commodity_loop (lines : list bytes) (nr : nat) (c : pcommodity) (dflt : bytes)
  : res (pcommodity * bytes * parser) :=
  match lines with
  | [] => Ok (c, dflt, mkParser [] nr)
  | l :: rest =>
      if body_ends l then Ok (c, dflt, mkParser lines nr)
      else match rsearch commodityBodyREX l with
           | None => Fail
           | Some (_, cs) =>
               match cap "note" cs, cap "amount" cs, cap "nomarket" cs, cap "symbol" cs, cap "default" cs with
               | (_ :: _) as n, _, _, _, _ => commodity_loop rest (S nr) (mkPCommodity (pc_id c) n (pc_dec c) (pc_nomarket c) (pc_symbol c) (pc_line c)) dflt
               | [], _ :: _, _, _, _ => commodity_loop rest (S nr) (mkPCommodity (pc_id c) (pc_name c) (pred (List.length (cap "decimals" cs))) (pc_nomarket c) (pc_symbol c) (pc_line c)) dflt
               | [], [], _ :: _, _, _ => commodity_loop rest (S nr) (mkPCommodity (pc_id c) (pc_name c) (pc_dec c) true (pc_symbol c) (pc_line c)) dflt
               | [], [], [], (_ :: _) as s, _ => commodity_loop rest (S nr) (mkPCommodity (pc_id c) (pc_name c) (pc_dec c) (pc_nomarket c) s (pc_line c)) dflt
               | [], [], [], [], _ :: _ => commodity_loop rest (S nr) c (pc_id c)
               | [], [], [], [], [] => Fail
               end
           end
  end.
Definition parse_commodity (e : env) (line : bytes) (rest : list bytes) (nr : nat) : res (pcommodity * bytes * parser) :=
  let cs := match_caps commodityHeadREX line in
  commodity_loop rest (S nr) (mkPCommodity (cap "commodity" cs) [] 2 false [] nr) (e_default e).

(** price.go:43-69 *)
Definition parse_price (e : env) (line : bytes) (rest : list bytes) (nr : nat) : res (pprice * parser) :=
  match rsearch priceREX line with
  | None => Fail
  | Some (_, cs) =>
      do date <- must_parse_date (e_today e) cs;
      do c <- must_find e (cap "commodity2" cs);
      do amt <- parse_amount (cap "amount" cs) c;
      Ok (mkPPrice date (cap "commodity1" cs) (cap "commodity2" cs) amt nr, mkParser rest (S nr))
  end.

(** include.go:27-32: matches[1] of a nil match panics *)
Definition parse_include (line : bytes) (rest : list bytes) (nr : nat) : res (item * parser) :=
  match rsearch includeHead line with
  | None => Panic
  | Some (_, cs) => Ok (IInclude (cap "1" cs) nr, mkParser rest (S nr))
  end.

(** bytes.TrimSpace (ASCII) *)
Fixpoint drop_space (s : bytes) : bytes :=
  match s with c :: r => if is_ascii_space c then drop_space r else s | [] => [] end.
Definition trim_space (s : bytes) : bytes := rev (drop_space (rev (drop_space s))).
(** test.go:19-33; at the end of the file the collected text is dropped *)
Fixpoint test_loop (lines : list bytes) (nr : nat) (b : bytes) : bytes * parser :=
  match lines with
  | [] => ([], mkParser [] nr)
  | l :: rest => if eqb_bytes (trim_space l) (B "end test") then (b, mkParser rest (S nr))
                 else test_loop rest (S nr) (b ++ l ++ [nl])
  end.
Definition parse_test (line : bytes) (rest : list bytes) (nr : nat) : res (ptest * parser) :=
  match rsearch testHead line with
  | None => Panic
  | Some (_, cs) => let '(b, p) := test_loop rest (S nr) [] in Ok (mkPTest (cap "1" cs) b nr, p)
  end.

(** parser.go:33-59 Next: [None] at the end of the input, else the entry, DefaultCommodityId and the parser *)
Fixpoint next_lines (e : env) (lines : list bytes) (nr : nat) : res (option (item * bytes * parser)) :=
  match lines with
  | [] => Ok None
  | l :: rest =>
      if blank l then next_lines e rest (S nr)
      else match l with
           | [] => Ok None   (* not reached: blank *)
           | c :: _ =>
               if existsb (eqc c) (B ";#%|*") then next_lines e rest (S nr)
               else if has_prefix (B "include") l then
                 do r <- parse_include l rest nr; Ok (Some (fst r, e_default e, snd r))
               else if has_prefix (B "account") l then
                 do r <- parse_account e l rest nr; Ok (Some (IAccount (fst r), e_default e, snd r))
               else if has_prefix (B "commodity ") l then
                 do r <- parse_commodity e l rest nr; Ok (Some (ICommodity (fst (fst r)), snd (fst r), snd r))
               else if has_prefix (B "test ") l then
                 do r <- parse_test l rest nr; Ok (Some (ITest (fst r), e_default e, snd r))
               else if has_prefix (B "P ") l then
                 do r <- parse_price e l rest nr; Ok (Some (IPrice (fst r), e_default e, snd r))
               else if is_digit c then
                 do r <- parse_transaction e l rest nr; Ok (Some (ITransaction (fst r), e_default e, snd r))
               else Fail
           end
  end.
Definition next (e : env) (p : parser) : res (option (item * bytes * parser)) := next_lines e (p_lines p) (p_nr p).

(** coin.go:92-129 Load of a text: repeated Next. [fuel] bounds the number of entries; each entry
    takes at least one line, so the number of lines is enough (next_progress in L_Parser.v).
    Only the parsing part: commodity definitions and includes are handled in M_Database.v. *)
Fixpoint read_items (fuel : nat) (e : env) (p : parser) : res (list item) :=
  match fuel with
  | O => Ok []
  | S f =>
      do r <- next e p;
      match r with
      | None => Ok []
      | Some (i, dflt, p') => do is' <- read_items f (mkEnv (e_find e) dflt (e_today e)) p'; Ok (i :: is')
      end
  end.
Definition read_text (e : env) (text : bytes) : res (list item) :=
  read_items (S (List.length (scan_lines text))) e (new_parser text).
