(** Model of cmd/csv2coin: values of fields, rows into transactions, sources of csv.rules. The decoding of CSV
    (encoding/csv) is given: a file is the list of its rows. The regular expressions written by the user are abstract:
    [rexm p s] is rex.Exp.Match, the groups by index (group 0 first) or None without a match. Simplification: a group that
    the user gives a name of one digit is not taken into account. Dates are days, see M_Date. *)
From Verif Require Import Base M_Amount M_Date M_Regex M_Parser M_Writer M_Names M_Ledger M_Rules M_Commands.

(** cmd/csv2coin/rules.go:18-23 Field *)
Record field := mkField { f_idx : option Z; f_out : bytes; f_cond : bytes; f_re : option bytes }.
(** map[string]Fields as an association list; a missing name has no fields *)
Definition fmap := list (bytes * list field).
Definition fields_of (fm : fmap) (n : bytes) : list field := match alookup n fm with Some fs => fs | None => [] end.
(** slice indexing: out of range panics *)
Definition row_at (row : list bytes) (i : Z) : res bytes :=
  if i <? 0 then Panic else match nth_error row (Z.to_nat i) with Some s => Ok s | None => Panic end.

(** rules.go:69-76, one part after a "$" in a direct field; "" panics *)
Definition direct_part (gs : list bytes) (p : bytes) : res bytes :=
  match p with
  | [] => Panic
  | c :: r => if is_digit c then Ok (nth (Z.to_nat (digit_val c)) gs [] ++ r) else Ok p
  end.
(** rules.go:64-78 directField after the match *)
Definition direct_out (gs : list bytes) (out : bytes) : res bytes :=
  match split_on "$"%char out with
  | [] | [_] => Ok out
  | p0 :: parts => do os <- res_map (direct_part gs) parts; Ok (concat (p0 :: os))
  end.
(** strings.IndexByte(p, '}'): the text before and after the first *)
Fixpoint cut_brace (s : bytes) : option (bytes * bytes) :=
  match s with
  | [] => None
  | c :: r => if eqc c "}"%char then Some ([], r)
              else match cut_brace r with Some (a, b) => Some (c :: a, b) | None => None end
  end.

Section Values.
Variable rexm : bytes -> bytes -> option (list bytes).
Variable row : list bytes.
Variable fm : fmap.

(** rules.go:46-55, one part after a "$" in a derived field; [val] is the value of a named field *)
Definition derived_part (val : bytes -> res bytes) (p : bytes) : res bytes :=
  match p with
  | [] => Panic
  | c :: r =>
      if eqc c "{"%char then
        match cut_brace r with
        | Some (n, rest) => do v <- val n; Ok (v ++ rest)
        | None => Ok p
        end
      else Ok p
  end.
Definition derived_out (val : bytes -> res bytes) (out : bytes) : res bytes :=
  match split_on "$"%char out with
  | [] | [_] => Ok out
  | p0 :: parts => do os <- res_map (derived_part val) parts; Ok (concat (p0 :: os))
  end.
(** rules.go:25-34 Field.Value, 36-57 derivedField, 59-78 directField; a condition without expression panics (nil) *)
Definition field_value (val : bytes -> res bytes) (f : field) : res bytes :=
  match f_idx f with
  | Some i =>
      do s <- row_at row i;
      match f_re f with
      | None => Ok s
      | Some re => match rexm re s with None => Ok [] | Some gs => direct_out gs (f_out f) end
      end
  | None =>
      match f_cond f with
      | [] => derived_out val (f_out f)
      | c =>
          do v <- val c;
          match f_re f with
          | None => Panic
          | Some re => match rexm re v with None => Ok [] | Some _ => derived_out val (f_out f) end
          end
      end
  end.
(** rules.go:81-88 Fields.Value *)
Fixpoint first_value (val : bytes -> res bytes) (fs : list field) : res bytes :=
  match fs with
  | [] => Ok []
  | f :: r => do v <- field_value val f; match v with [] => first_value val r | _ => Ok v end
  end.
(** the value of a named field; references are followed to a depth of [fuel], Fail: that was not enough *)
Fixpoint value (fuel : nat) (n : bytes) : res bytes :=
  match fuel with O => Fail | S f => first_value (value f) (fields_of fm n) end.
End Values.

(** time.Parse("2006/01/02", s): four digits, two digits, two digits of a date that exists *)
Definition days_in (y m : Z) : Z :=
  if (m =? 2) && is_leap y then 29 else days_before m - days_before (m - 1).
Definition parse_ymd (s : bytes) : res Z :=
  match s with
  | [y1; y2; y3; y4; s1; m1; m2; s2; d1; d2] =>
      let y := digits_val [y1; y2; y3; y4] in
      let m := digits_val [m1; m2] in
      let d := digits_val [d1; d2] in
      if forallb is_digit [y1; y2; y3; y4; m1; m2; d1; d2] && eqc s1 "/"%char && eqc s2 "/"%char
         && (1 <=? m) && (m <=? 12) && (1 <=? d) && (d <=? days_in y m)
      then Ok (go_date y m d) else Fail
  | _ => Fail
  end.

Section Csv.
Variable matches : bytes -> bytes -> bool.            (* patterns of rules, see M_Rules *)
Variable rexm : bytes -> bytes -> option (list bytes).
Variable fuel : nat.                                  (* depth of references, rule sets and accounts *)
Variable comm : bytes -> commodity.                   (* Account.Commodity *)
Variable children : bytes -> list bytes.              (* Account.Children *)
Variable by_ofx_id : bytes -> option bytes.           (* FindAccountOfxId *)
Variable by_id by_symbol : bytes -> option commodity. (* Commodities, CommoditiesBySymbol *)

(** main.go:202-210 findAccountForCommodity *)
Definition account_for (c : commodity) (root : bytes) : bytes :=
  fold_left (fun account a => if eq_commodity (comm a) c && eqb_bytes account unbalanced then a else account)
            (first_with_children fuel children root) unbalanced.
(** main.go:148-152, 170-174 *)
Definition find_commodity (n : bytes) : res commodity :=
  match by_id n with Some c => Ok c | None => match by_symbol n with Some c => Ok c | None => Fail end end.

(** main.go:114-200 transactionFrom; None: the row is dropped. The rules' index is nil without rules: panic *)
Definition transaction_from (L : ledger) (row : list bytes) (fm : fmap) (ri : option rindex) : res (ledger * option rtx) :=
  let val n := value rexm row fm fuel n in
  do acct <- val (B "account");
  do descr <- val (B "description");
  let description := trim_ws descr in
  match ri with
  | None => Panic
  | Some i =>
      do ars <- account_rules_for by_ofx_id i acct;
      match rule_for matches fuel (ri_sets i) description (ar_rules ars) with
      | None => Fail
      | Some (Some (mkRule None _ _)) => Ok (L, None)
      | Some found =>
          let to := match found with Some (mkRule (Some a) _ _) => a | _ => unbalanced end in
          let notes := match found with Some r => r_notes r | None => [] end in
          do date <- val (B "date");
          do posted <- parse_ymd date;
          do note <- val (B "note");
          let notes := match trim_ws note with [] => notes | n => [n] end in
          let x := mkTx posted [] description notes [] O in
          do amt <- val (B "amount");
          match amt with
          | [] => Fail
          | _ =>
              do currency <- val (B "currency");
              do c <- (match currency with [] => Ok (comm to) | _ => find_commodity currency end);
              do amount <- must_parse_amount amt c;
              let to := account_for (a_com amount) to in
              do symbol <- val (B "symbol");
              match symbol with
              | [] => let '(L, x) := post L x (account_for (a_com amount) (ar_account ars)) to amount None in Ok (L, Some x)
              | _ =>
                  do sc <- find_commodity symbol;
                  do q <- val (B "quantity");
                  match q with
                  | [] => let '(L, x) := post L x (account_for (a_com amount) (ar_account ars)) to amount None in Ok (L, Some x)
                  | _ =>
                      do quantity <- must_parse_amount q sc;
                      let quantity := if 0 <? Z.sgn (a_int quantity) * Z.sgn (a_int amount) then negated quantity else quantity in
                      let '(L, x) := post_conversion L x (account_for (a_com quantity) (ar_account ars)) quantity None to amount None in
                      Ok (L, Some x)
                  end
              end
          end
      end
  end.

(** main.go:90-112 readTransactions; encoding/csv reports a row whose length is not that of the row before (with
    FieldsPerRecord = 0, the initial value, none): [per] is FieldsPerRecord *)
Fixpoint skip_rows (n : nat) (per : nat) (rows : list (list bytes)) : res (nat * list (list bytes)) :=
  match n with
  | O => Ok (per, rows)
  | S m => match rows with [] => Fail | r :: rest => skip_rows m (List.length r) rest end
  end.
Fixpoint read_rows (L : ledger) (per : nat) (rows : list (list bytes)) (fm : fmap) (ri : option rindex) : res (ledger * list rtx) :=
  match rows with
  | [] => Ok (L, [])
  | r :: rest =>
      if (per =? 0)%nat || (per =? List.length r)%nat then
        do Lx <- transaction_from L r fm ri;
        do Lxs <- read_rows (fst Lx) (List.length r) rest fm ri;
        Ok (fst Lxs, match snd Lx with Some x => x :: snd Lxs | None => snd Lxs end)
      else Fail
  end.
(** rules.go:90-94 Source *)
Record source := mkSource { so_name : bytes; so_skip : nat; so_fields : fmap }.
Definition read_csv (L : ledger) (rows : list (list bytes)) (src : source) (ri : option rindex) : res (ledger * list rtx) :=
  do pr <- skip_rows (so_skip src) 0 rows;
  read_rows L (fst pr) (snd pr) (so_fields src) ri.
Fixpoint read_csvs (L : ledger) (files : list (list (list bytes))) (src : source) (ri : option rindex) : res (ledger * list rtx) :=
  match files with
  | [] => Ok (L, [])
  | f :: rest =>
      do Lx <- read_csv L f src ri;
      do Lxs <- read_csvs (fst Lx) rest src ri;
      Ok (fst Lxs, snd Lx ++ snd Lxs)
  end.

(** main.go:212-221 labels *)
Definition labels : list bytes := [B "account"; B "description"; B "date"; B "amount"; B "currency"; B "symbol"; B "quantity"; B "note"].
(** main.go:223-234 parseFields; strconv.Atoi fails on anything but digits with a sign *)
Definition atoi_ok (s : bytes) : res Z :=
  let neg := fst (split_sign s) in
  let ds := snd (split_sign s) in
  if negb (forallb is_digit ds) || (List.length ds =? 0)%nat then Fail
  else let v := if neg then - digits_val ds else digits_val ds in
       if (int64_min <=? v) && (v <=? int64_max) then Ok v else Fail.
Definition parse_fields (l : bytes) : res fmap :=
  let idxs := split_on ","%char l in
  if (List.length idxs =? List.length labels)%nat then
    do is <- res_map atoi_ok idxs;
    Ok (combine labels (map (fun i => [mkField (Some i) [] [] None]) is))
  else Fail.

(** rules.go:163-166 Rules; the outer None: there is no csv.rules, a nil pointer; an inner None: nothing after "---" *)
Record crules := mkCRules { cr_sources : list (bytes * source); cr_index : option rindex }.
(** main.go:39-88 main without -rules: the transactions written, in order; M_Writer gives the text *)
Definition csv2coin (fields src : bytes) (rules : option crules) (files : list (list (list bytes))) (L : ledger) : res (list transaction) :=
  do s <- match fields with
          | _ :: _ => do fm <- parse_fields fields; Ok (mkSource [] 0 fm)
          | [] =>
              match src with
              | [] => Fail
              | _ => match rules with
                     | None => Panic
                     | Some r => match alookup src (cr_sources r) with Some s => Ok s | None => Fail end
                     end
              end
          end;
  do Lx <- read_csvs L files s (match rules with Some r => cr_index r | None => None end);
  Ok (map (as_written (fst Lx)) (stable_sort (tx_less (fst Lx)) (snd Lx))).
End Csv.

(** ** csv.rules *)
(** rules.go:96 sourceREX *)
Definition sourceREX : rx :=
  rseq [RGrp "source" (rplus w_); ROpt (RSeq (rplus s_) (RGrp "skip" (rplus d_))); RStar s_; REnd].
(** rules.go:97-99 derivedFieldRex, directFieldRex, fieldREX *)
Definition quote : ascii := chr 34.
Definition derivedFieldREX : rx :=
  rseq [rchar quote; RGrp "code" (RStar any_); rchar quote; ROpt (rseq [rplus s_; RGrp "condField" (rplus w_); rplus s_; RGrp "condRex" (rplus any_)])].
Definition directFieldREX : rx :=
  rseq [RGrp "rowIdx" (rplus d_); ROpt (rseq [rplus s_; rchar quote; RGrp "out" (rplus any_); rchar quote; rplus s_; RGrp "rex" (rplus any_)])].
Definition fieldREX : rx :=
  rseq [rplus s_; RGrp "field" (rplus w_); rplus s_; RAlt directFieldREX derivedFieldREX; REnd].

Section ReadSources.
Variable valid : bytes -> bool.   (* regexp.MustCompile accepts the expression *)
Definition compile (p : bytes) : res (option bytes) := if valid p then Ok (Some p) else Panic.
(** rules.go:116-132 one line of a source *)
Definition scan_field (cs : caps) : res field :=
  match cap "code" cs with
  | (_ :: _) as code =>
      match cap "condField" cs with
      | [] => Ok (mkField None code [] None)
      | c => do re <- compile (trim_space (cap "condRex" cs)); Ok (mkField None code c re)
      end
  | [] =>
      do i <- atoi_ok (cap "rowIdx" cs);
      do re <- match cap "rex" cs with [] => Ok None | ex => compile (trim_space ex) end;
      Ok (mkField (Some i) (trim_space (cap "out" cs)) [] re)
  end.
(** rules.go:110-138 the loop; the lines from the first one that is no field *)
Fixpoint scan_fields (fm : fmap) (lines : list bytes) : res (fmap * list bytes) :=
  match lines with
  | [] => Ok (fm, [])
  | line :: rest =>
      match rprefix fieldREX line with
      | None => Ok (fm, lines)
      | Some (_, cs) =>
          do f <- scan_field cs;
          scan_fields (aset (cap "field" cs) (fields_of fm (cap "field" cs) ++ [f]) fm) rest
      end
  end.
(** rules.go:101-139 ScanSource; Fail also when the line is no source (rules.go:189) *)
Definition scan_source (line : bytes) (rest : list bytes) : res (source * list bytes) :=
  match rprefix sourceREX line with
  | None => Fail
  | Some (_, cs) =>
      do skip <- atoi_ok (cap "skip" cs);
      match rest with
      | [] => Fail
      | _ => do fr <- scan_fields [] rest; Ok (mkSource (cap "source" cs) (Z.to_nat skip) (fst fr), snd fr)
      end
  end.
(** rules.go:176-197 ReadRules; [fuel]: at most one source for each line. bufio.Scanner has "" at the end of the input *)
Fixpoint read_sources (fuel : nat) (sources : list (bytes * source)) (lines : list bytes) : res (list (bytes * source) * list bytes) :=
  match fuel with
  | O => Fail
  | S n =>
      match lines with
      | [] => Fail
      | line :: rest =>
          if eqb_bytes line (B "---") then Ok (sources, rest)
          else do sr <- scan_source line rest; read_sources n (aset (so_name (fst sr)) (fst sr) sources) (snd sr)
      end
  end.
Definition read_csv_rules (find : bytes -> res bytes) (text : bytes) : res crules :=
  do sr <- read_sources (S (List.length (scan_lines text))) [] (scan_lines text);
  match snd sr with
  | [] => Ok (mkCRules (fst sr) None)
  | line :: lines => do ri <- scan_rules find valid line lines; Ok (mkCRules (fst sr) (Some ri))
  end.
End ReadSources.
