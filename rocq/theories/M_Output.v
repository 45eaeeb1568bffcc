(** Model of the text written by the commands balance and register: cmd/coin/balance.go, postings.go, register.go and
    the output part of totals.go. *)
From Verif Require Import Base M_Amount M_Date M_Names M_Parser M_Ledger M_Report M_Json.
Local Open Scope Z_scope.

(** ** fmt *)
Definition between (lo hi : Z) (c : ascii) : bool := (lo <=? code c) && (code c <=? hi).
Definition cont_byte (c : ascii) : bool := between 128 191 c.
(** unicode/utf8 RuneCountInString: the lengths of encodings from their first two bytes *)
Definition starts2 (c c1 : ascii) : bool := between 194 223 c && cont_byte c1.
Definition starts3 (c c1 : ascii) : bool :=
  ((code c =? 224) && between 160 191 c1) || ((code c =? 237) && between 128 159 c1)
  || (between 225 239 c && negb (code c =? 237) && cont_byte c1).
Definition starts4 (c c1 : ascii) : bool :=
  ((code c =? 240) && between 144 191 c1) || (between 241 243 c && cont_byte c1) || ((code c =? 244) && between 128 143 c1).
(** unicode/utf8 RuneCountInString: a byte that starts no valid encoding counts as one *)
Fixpoint rune_count (s : bytes) : nat :=
  match s with
  | [] => O
  | c :: r =>
      S (match r with
         | [] => O
         | c1 :: r1 =>
             if starts2 c c1 then rune_count r1
             else match r1 with
                  | [] => rune_count r
                  | c2 :: r2 =>
                      if starts3 c c1 && cont_byte c2 then rune_count r2
                      else match r2 with
                           | [] => rune_count r
                           | c3 :: r3 => if starts4 c c1 && cont_byte c2 && cont_byte c3 then rune_count r3 else rune_count r
                           end
                  end
         end)
  end.
(** fmt's %*s and %-*s for a width that is not negative (fmt/format.go padString) *)
Definition padl (w : nat) (s : bytes) : bytes := rep " "%char (w - rune_count s) ++ s.
Definition padr (w : nat) (s : bytes) : bytes := s ++ rep " "%char (w - rune_count s).
(** %*s with any width: a negative one means %-*s (fmt/print.go). Simplification: fmt ignores widths beyond a million. *)
Definition star (w : Z) (s : bytes) : bytes := if w <? 0 then padr (Z.to_nat (- w)) s else padl (Z.to_nat w) s.
(** amount.go:49-73 Format with the verb %*a: without a precision the decimals of the commodity *)
Definition star_amount (w : Z) (a : amount) : res bytes := do s <- format_amount a (a_dec a); Ok (star w s).

(** ** cmd/coin/balance.go *)
(** balance.go:112-120 maxWidth; the map is iterated in any order *)
Fixpoint max_width (comm : bytes -> commodity) (m : balances) : res nat :=
  match m with
  | [] => Ok O
  | (a, v) :: r => do w <- width v (c_dec (comm a)); do k <- max_width comm r; Ok (Nat.max w k)
  end.
(** balance.go:122-131 curWidth *)
Definition cur_width (m : balances) : nat := fold_right (fun kv k => Nat.max (List.length (c_id (a_com (snd kv)))) k) O m.
(** balance.go:79-80, one line; [cid] is a.CommodityId, the commodity as written in the account *)
Definition balance_line (w cw uw : nat) (tot cum : amount) (cid name : bytes) : res bytes :=
  do t <- star_amount (Z.of_nat w) tot;
  do c <- star_amount (Z.of_nat cw) cum;
  Ok (t ++ B " | " ++ c ++ B " " ++ padr uw cid ++ B " | " ++ name ++ [nline]).
(** balance.go:74-82 the loop; every visited account has both totals (made in execute), Panic stands for one without *)
Fixpoint balance_lines (fuel : nat) (T : tree) (level : Z) (zero : bool) (cid : bytes -> bytes) (totals cum : balances)
    (w cw uw : nat) (accs : list bytes) : res bytes :=
  match accs with
  | [] => Ok []
  | a :: r =>
      if negb (level =? 0) && (level <? Z.of_nat (depth fuel T a)) then balance_lines fuel T level zero cid totals cum w cw uw r
      else match bget a totals, bget a cum with
           | Some t, Some c =>
               if zero || negb (is_zero c)
               then do l <- balance_line w cw uw t c (cid a) a;
                    do ls <- balance_lines fuel T level zero cid totals cum w cw uw r; Ok (l ++ ls)
               else balance_lines fuel T level zero cid totals cum w cw uw r
           | _, _ => Panic
           end
  end.
(** balance.go:72-83 print *)
Definition balance_print (fuel : nat) (comm : bytes -> commodity) (cid : bytes -> bytes) (T : tree) (level : Z) (zero : bool)
    (account : bytes) (totals cum : balances) : res bytes :=
  do w <- max_width comm totals;
  do cw <- max_width comm cum;
  balance_lines fuel T level zero cid totals cum w cw (cur_width cum) (with_children fuel (t_children T) account).
(** balance.go:44-70 execute: the text of the command, on the quantities of the selected postings *)
Definition balance_command (fuel : nat) (conv : conversion) (comm : bytes -> commodity) (cid : bytes -> bytes) (T : tree)
    (sel : bytes -> list amount) (level : Z) (zero : bool) (account : bytes) : res bytes :=
  do x <- balance_report fuel conv comm T sel account;
  balance_print fuel comm cid T level zero account (fst x) (snd x).

(** ** cmd/coin/postings.go *)
(** strings.TrimPrefix *)
Definition trim_prefix (p s : bytes) : bytes := if starts_with p s then skipn (List.length p) s else s.
(** postings.go:139-145 options with the defaults of MaxDesc, MaxAcct, 147-173; [lo_loc] is trimLocation of the location *)
Record lopts := mkOpts { lo_prefix : bytes; lo_desc : Z; lo_acct : Z; lo_com : option commodity; lo_notes : bool; lo_loc : option (rtx -> bytes) }.
Definition max_desc (o : lopts) : Z := if lo_desc o =? 0 then 50 else lo_desc o.
Definition max_acct (o : lopts) : Z := if lo_acct o =? 0 then 15 else lo_acct o.
(** what a listed posting shows: postings.go:69-79, 111-122; a missing Quantity or Other is dereferenced (widths) *)
Record item := mkItem { i_date : Z; i_desc : bytes; i_acc : bytes; i_other : bytes; i_qty : amount; i_dec : nat; i_cid : bytes;
                        i_asserted : bool; i_notes : list bytes; i_loc : bytes }.
Fixpoint items (L : ledger) (tx_of : nat -> rtx) (comm : bytes -> commodity) (cid : bytes -> bytes) (o : lopts) (ps : list nat) : res (list item) :=
  match ps with
  | [] => Ok []
  | p :: r =>
      match other (tx_of p) p, rp_qty (heap L p) with
      | Some q, Some a =>
          do is <- items L tx_of comm cid o r;
          Ok (mkItem (x_posted (tx_of p)) (x_desc (tx_of p)) (rp_acc (heap L p)) (rp_acc (heap L q)) a (c_dec (comm (rp_acc (heap L p))))
                     (cid (rp_acc (heap L p))) (rp_asserted (heap L p)) (rp_notes (heap L p) ++ x_notes (tx_of p))
                     (match lo_loc o with Some f => f (tx_of p) | None => [] end) :: is)
      | _, _ => Panic
      end
  end.
(** postings.go:29-37 widths *)
Definition max_len (f : item -> bytes) (is : list item) : nat := fold_right (fun i k => Nat.max (List.length (f i)) k) O is.
Fixpoint max_qty (is : list item) : res nat :=
  match is with [] => Ok O | i :: r => do w <- width (i_qty i) (i_dec i); do k <- max_qty r; Ok (Nat.max w k) end.
(** postings.go:74, 116-117: the label of an account *)
Definition account_label (o : lopts) (a : bytes) : bytes := shorten_account_name (trim_prefix (lo_prefix o) a) (max_acct o).
(** postings.go:133-137 printNotes *)
Definition note_lines (date : bytes) (notes : list bytes) : bytes :=
  flat_map (fun n => rep " "%char (List.length date) ++ B " ;" ++ B " " ++ n ++ [nline]) notes.
(** postings.go:64-87 and 105-130, one posting with its running total *)
Definition listing_line (long : bool) (o : lopts) (w0 w1 w2 w3 tw : Z) (i : item) (t : amount) : res bytes :=
  do q <- star_amount w2 (i_qty i);
  do st <- star_amount tw t;
  let cols := [format_date (i_date i); star w0 (i_desc i)] ++ (if long then [star w1 (account_label o (i_acc i))] else [])
              ++ [star w3 (account_label o (i_other i)); q; st ++ B " " ++ i_cid i ++ [if i_asserted i then "*"%char else " "%char]] in
  Ok (join (B " | ") cols ++ (match lo_loc o with Some _ => B "| " ++ i_loc i | None => [] end) ++ [nline]
      ++ (if lo_notes o then note_lines (format_date (i_date i)) (i_notes i) else [])).
Fixpoint listing_lines (long : bool) (o : lopts) (w0 w1 w2 w3 tw : Z) (is : list item) (ts : list amount) : res bytes :=
  match is, ts with
  | i :: r, t :: s => do l <- listing_line long o w0 w1 w2 w3 tw i t; do ls <- listing_lines long o w0 w1 w2 w3 tw r s; Ok (l ++ ls)
  | _, _ => Ok []
  end.
(** postings.go:49-88 print, 90-131 printLong *)
Definition print_listing (conv : conversion) (comm : bytes -> commodity) (long : bool) (o : lopts) (is : list item) : res bytes :=
  match is with
  | [] => Ok []
  | i0 :: _ =>
      do mq <- max_qty is;
      let com := match lo_com o with Some c => c | None => comm (i_acc i0) end in
      do ts <- running conv (zero_amount com) (map i_qty is);
      do tw <- width (last ts (zero_amount com)) (c_dec com);
      listing_lines long o (Z.min (Z.of_nat (max_len i_desc is)) (max_desc o))
        (Z.min (Z.of_nat (max_len (fun i => trim_prefix (lo_prefix o) (i_acc i)) is)) (max_acct o))
        (Z.of_nat mq) (Z.min (Z.of_nat (max_len i_other is)) (max_acct o)) (Z.of_nat tw) is ts
  end.
(** register.go:73-106 execute and fullRegister: [ps] the selected postings (of the account, or with -r of all accounts
    below, by date); [size] is -l, [loc] -f, [notes] -n; the output option is text *)
Definition full_register (conv : conversion) (comm : bytes -> commodity) (cid : bytes -> bytes) (L : ledger) (tx_of : nat -> rtx)
    (recurse : bool) (size : Z) (notes : bool) (loc : option (rtx -> bytes)) (acc : bytes) (ps : list nat) : res bytes :=
  let o := mkOpts acc 0 size (Some (comm acc)) notes loc in
  do is <- items L tx_of comm cid o ps;
  do t <- print_listing conv comm recurse o is;
  Ok (acc ++ B " " ++ c_id (comm acc) ++ [nline] ++ t).

(** ** cmd/coin/totals.go:482-652 output *)
(** register.go:136-146 label *)
Definition column_label (acc : bytes) (size : Z) (a : option bytes) : bytes :=
  match a with
  | None => B "Other"
  | Some n => if eqb_bytes n acc then snd (parent_and_name acc) else shorten_account_name (trim_prefix acc n) size
  end.
Fixpoint res_all {A C} (f : A -> res C) (l : list A) : res (list C) :=
  match l with [] => Ok [] | x :: r => do y <- f x; do ys <- res_all f r; Ok (y :: ys) end.
(** totals.go:576-635 rows: the strings; [ptext] is Time.Format with the format of the period *)
Definition first_col (m : atotals) (order : list (option bytes)) : option tts :=
  match order with [] => None | a :: _ => aget a m end.
Definition string_rows (ptext : Z -> bytes) (label : option bytes -> bytes) (m : atotals) (order : list (option bytes)) : res (list (list bytes)) :=
  match first_col m order with
  | None => Panic
  | Some first =>
      let hasp := match by_time first with Some _ => true | None => false end in
      do rs <- rows m order;
      do body <- res_all (fun r : Z * bytes * list amount => let '(t, k, xs) := r in
                            do ss <- res_all string_amount xs;
                            Ok ((if hasp then [ptext t] else []) ++ (if by_cat first then [k] else []) ++ ss)) rs;
      Ok (((if hasp then [B "Date"] else []) ++ (if by_cat first then [B "Category"] else []) ++ map label order) :: body)
  end.
(** encoding/csv fieldNeedsQuotes, Comma ','; the white space of unicode.IsSpace at the start *)
Definition comma : ascii := ","%char.
Definition space_runes : list bytes :=
  [[chr 9]; [chr 10]; [chr 11]; [chr 12]; [chr 13]; [chr 32]; [chr 194; chr 133]; [chr 194; chr 160]; [chr 225; chr 154; chr 128]]
  ++ map (fun z => [chr 226; chr 128; chr z]) [128; 129; 130; 131; 132; 133; 134; 135; 136; 137; 138; 168; 169; 175]
  ++ [[chr 226; chr 129; chr 159]; [chr 227; chr 128; chr 128]].
Definition csv_special (c : ascii) : bool := eqc c comma || eqc c quote || (code c =? 10) || (code c =? 13).
Definition needs_quotes (f : bytes) : bool :=
  match f with
  | [] => false
  | _ => eqb_bytes f (B "\.") || existsb csv_special f || existsb (fun p => starts_with p f) space_runes
  end.
(** encoding/csv Writer.Write, UseCRLF false *)
Definition csv_field (f : bytes) : bytes :=
  if needs_quotes f then quote :: flat_map (fun c => if eqc c quote then [quote; quote] else [c]) f ++ [quote] else f.
Definition csv_row (r : list bytes) : bytes := join [comma] (map csv_field r) ++ [nline].
(** totals.go:639-645 writeCSV *)
Definition write_csv (rs : list (list bytes)) : bytes := flat_map csv_row rs.
(** totals.go:647-652 writeJSON: the Encoder without indentation *)
Definition json_row (r : list bytes) : bytes := B "[" ++ join [comma] (map encode_string r) ++ B "]" ++ [nline].
Definition write_json (rs : list (list bytes)) : bytes := flat_map json_row rs.

(** totals.go:236-265 maxWidth of one column *)
Fixpoint max_amounts (dec : nat) (l : list amount) : res nat :=
  match l with [] => Ok O | a :: r => do w <- width a dec; do k <- max_amounts dec r; Ok (Nat.max w k) end.
Definition cell_amounts (c : cell) : list amount := match c_total c with Some a => [a] | None => map snd (c_cats c) end.
Definition column_width (ts : tts) : res nat :=
  match cells ts with
  | [] => Ok O
  | l => match first_commodity l with
         | None => Panic
         | Some com => match by_time ts with
                       | None => match last_cell l with Some c => max_amounts (c_dec com) (map snd (c_cats c)) | None => Panic end
                       | Some _ => max_amounts (c_dec com) (flat_map cell_amounts l)
                       end
         end
  end.
(** totals.go:267-272 maxPeriodWidth *)
Definition period_width (ptext : Z -> bytes) (ts : tts) : res nat :=
  match by_time ts with
  | None => Ok O
  | Some _ => match cells ts with c :: _ => Ok (List.length (ptext (c_time c))) | [] => Panic end
  end.
(** totals.go:274-288 maxCategoryWidth *)
Definition category_width (ts : tts) : nat :=
  fold_right (fun k n => Nat.max (List.length k) n) O (flat_map (fun c => map fst (c_cats c)) (cells ts)).
(** totals.go:386-391, 508-517: widths of the columns with the labels *)
Fixpoint column_widths (label : option bytes -> bytes) (m : atotals) (order : list (option bytes)) : res (list nat) :=
  match order with
  | [] => Ok []
  | a :: r =>
      do w <- match aget a m with Some ts => column_width ts | None => Ok O end;
      do ws <- column_widths label m r;
      Ok (Nat.max w (List.length (label a)) :: ws)
  end.
(** totals.go:554-571: the amounts of a row; a nil amount is printed as <nil>, without padding (fmt catches the panic of
    Format on a nil pointer) *)
Fixpoint text_amounts (hasp : bool) (m : atotals) (order : list (option bytes)) (ws : list nat) (i : nat) (time : Z) (cat : bytes) : res (list bytes) :=
  match order, ws with
  | a :: r, w :: ws =>
      match aget a m with
      | None => Fail
      | Some ts =>
          match (if hasp then nth_error (cells ts) i else last_cell (cells ts)) with
          | None => Panic
          | Some c => if hasp && negb (time =? c_time c) then Fail
                      else do s <- match amount_at c cat with Some x => star_amount (Z.of_nat w) x | None => Ok (B "<nil>") end;
                           do ss <- text_amounts hasp m r ws i time cat; Ok (s :: ss)
          end
      end
  | _, _ => Ok []
  end.
(** totals.go:537-573: the rows; the line is the columns with " | " between them (506, 523-536: the pieces of the format
    are joined by "|" and trimmed) *)
Fixpoint text_rows (ptext : Z -> bytes) (pw cw : nat) (m : atotals) (order : list (option bytes)) (ws : list nat) (i : nat) (l : list cell) : res (list (list bytes)) :=
  match l with
  | [] => Ok []
  | c :: r =>
      do x <- res_all (fun k => do ss <- text_amounts (negb (pw =? 0)%nat) m order ws i (c_time c) k;
                                Ok ((if (pw =? 0)%nat then [] else [padl pw (ptext (c_time c))]) ++ (if (cw =? 0)%nat then [] else [padl cw k]) ++ ss)) (categories c);
      do y <- text_rows ptext pw cw m order ws (S i) r; Ok (x ++ y)
  end.
Definition text_line (cols : list bytes) : bytes := join (B " | ") cols ++ [nline].
(** totals.go:497-574 print (label is never nil). Simplification: when the period and the category column are both
    missing (payees that are all empty, no period) format and arguments do not fit and fmt prints BADWIDTH: Panic here *)
Definition print_totals (ptext : Z -> bytes) (label : option bytes -> bytes) (m : atotals) (order : list (option bytes)) : res bytes :=
  match first_col m order with
  | None => Panic
  | Some first =>
      do pw <- period_width ptext first;
      let cw := category_width first in
      if ((pw =? 0) && (cw =? 0))%nat then Panic
      else
        do ws <- column_widths label m order;
        do rs <- text_rows ptext pw cw m order ws 0 (cells first);
        let header := (if (pw =? 0)%nat then [] else [padl pw []]) ++ (if (cw =? 0)%nat then [] else [padl cw []])
                      ++ map (fun x => padl (fst x) (label (snd x))) (combine ws order) in
        Ok (flat_map text_line (header :: rs))
  end.
(** totals.go:482-495 output *)
Inductive out_format := OutText | OutJson | OutCsv.
Definition output (f : out_format) (ptext : Z -> bytes) (label : option bytes -> bytes) (m : atotals) (order : list (option bytes)) : res bytes :=
  match f with
  | OutJson => do rs <- string_rows ptext label m order; Ok (write_json rs)
  | OutCsv => do rs <- string_rows ptext label m order; Ok (write_csv rs)
  | OutText => print_totals ptext label m order
  end.
(** register.go:73-84 execute and 108-148 aggregatedRegister: the whole text *)
Definition aggregated_register (conv : conversion) (comm : bytes -> commodity) (ptext : Z -> bytes) (f : out_format) (size : Z) (acc : bytes) (cumulative : bool) (n : Z)
    (m : atotals) (order : list (option bytes)) : res bytes :=
  do x <- top conv n m order;
  do m <- merge_time conv (Some acc) (aget (Some acc) (fst x)) (fst x);
  do m <- (if cumulative then make_cumulative_all conv m else Ok m);
  do t <- output f ptext (column_label acc size) m (snd x);
  Ok (match f with OutText => acc ++ B " " ++ c_id (comm acc) ++ [nline] ++ t | _ => t end).
