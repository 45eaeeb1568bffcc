(** How a transaction may be written by hand (README, "Transaction"), and what it then says.
    Said about texts only: no parser, no regular expressions. *)
From Verif Require Import Base M_Amount M_Date M_Parser S_Decimal S_DateText S_Ledger.

(** spaces and tabs; [gap] at least one of them *)
Definition blanks (s : bytes) : Prop := Forall (fun c => c = " "%char \/ c = chr 9) s.
Definition gap (s : bytes) : Prop := s <> [] /\ blanks s.

(** the rest of a line: nothing, or a note after ';' *)
Inductive tail_is : list bytes -> bytes -> Prop :=
| tail_none sp : blanks sp -> tail_is [] sp
| tail_note sp b n : blanks sp -> blanks b -> note_ok n -> tail_is [n] (sp ++ B ";" ++ b ++ n)
| tail_empty sp b : blanks sp -> blanks b -> tail_is [] (sp ++ B ";" ++ b).

(** an amount: a decimal number and the id of a known commodity; it means the number in units of the
    smallest decimal of the commodity (further digits are cut off towards minus infinity) *)
Inductive amount_is (e : env) : amount -> bytes -> Prop :=
| amount_is_intro l sp i c : lit_ok l -> gap sp -> id_ok i -> e_find e i = Some c ->
    fits64 (lit_int l) = true -> (c_dec c <= 50)%nat -> (List.length (l_frac l) <= 50)%nat ->
    amount_is e (mkAmount (Qfloor (lit_value l * pow10Q (c_dec c))) c) (lit_text l ++ sp ++ i).

(** a posting line: account, optional amount, optional balance after '=', rest *)
Inductive posting_line (e : env) : posting -> bytes -> Prop :=
| pl_bare sp a ns t : gap sp -> name_ok a -> tail_is ns t ->
    posting_line e (mkPosting a None None ns) (sp ++ a ++ t)
| pl_amount sp a sp2 q qt ns t : gap sp -> name_ok a -> gap sp2 -> amount_is e q qt -> tail_is ns t ->
    posting_line e (mkPosting a (Some q) None ns) (sp ++ a ++ sp2 ++ qt ++ t)
| pl_balance sp a sp2 q qt sp3 sp4 b bt ns t : gap sp -> name_ok a -> gap sp2 -> amount_is e q qt ->
    gap sp3 -> gap sp4 -> amount_is e b bt -> tail_is ns t ->
    posting_line e (mkPosting a (Some q) (Some b) ns) (sp ++ a ++ sp2 ++ qt ++ sp3 ++ B "=" ++ sp4 ++ bt ++ t).
(** a note on a line of its own: one space after the ';' is not part of it *)
Inductive note_line : bytes -> bytes -> Prop :=
| nl_space sp n : gap sp -> n <> [] -> line_text n -> note_line n (sp ++ B "; " ++ n)
| nl_tight sp n : gap sp -> n <> [] -> line_text n -> ~ starts_with (eqc " "%char) n -> note_line n (sp ++ B ";" ++ n).
(** a posting: its line and the note lines that follow *)
Inductive posting_lines (e : env) : posting -> list bytes -> Prop :=
| posting_lines_intro a q b ns l ns' ls : posting_line e (mkPosting a q b ns) l -> Forall2 note_line ns' ls ->
    posting_lines e (mkPosting a q b (ns ++ ns')) (l :: ls).

(** the date of a header: y/m/d with a year of two or four digits, or m/d; it means what it means on a command line *)
Inductive date_is (td : today) : Z -> bytes -> Prop :=
| date_is_ymd ys ms ds d : digits_n 2 ys \/ digits_n 4 ys -> d12_ok ms -> d12_ok ds -> set_date td (ymd_text ys ms ds) = Ok d ->
    date_is td d (ymd_text ys ms ds)
| date_is_md ms ds d : d12_ok ms -> d12_ok ds -> set_date td (md_text ms ds) = Ok d -> date_is td d (md_text ms ds).
(** an optional code in parentheses *)
Inductive code_is : bytes -> bytes -> Prop :=
| code_none : code_is [] []
| code_some sp c : gap sp -> c <> [] -> code_ok c -> code_is c (sp ++ B "(" ++ c ++ B ")").
(** the header line: date, code, description, note. Without a description a note must follow the date or the code at once *)
Inductive header_is (e : env) : Z -> bytes -> bytes -> list bytes -> bytes -> Prop :=
| h_bare d dt c ct sp : date_is (e_today e) d dt -> code_is c ct -> blanks sp -> header_is e d c [] [] (dt ++ ct ++ sp)
| h_note d dt c ct b n : date_is (e_today e) d dt -> code_is c ct -> blanks b -> note_ok n ->
    header_is e d c [] [n] (dt ++ ct ++ B ";" ++ b ++ n)
| h_desc d dt c ct sp x ns t : date_is (e_today e) d dt -> code_is c ct -> gap sp -> x <> [] -> desc_text_ok x ->
    (c = [] -> ~ code_like x) -> tail_is ns t -> header_is e d c x ns (dt ++ ct ++ sp ++ x ++ t).

(** the lines of a transaction; note lines before the first posting belong to the transaction *)
Inductive transaction_lines (e : env) : transaction -> list bytes -> Prop :=
| transaction_lines_intro d c x ns h ns' hls ps pls n : header_is e d c x ns h -> Forall2 note_line ns' hls ->
    ps <> [] -> Forall2 (posting_lines e) ps pls ->
    transaction_lines e (mkTransaction d c x (ns ++ ns') ps n) (h :: hls ++ concat pls).

(** between entries: a blank line ends a transaction; then blank lines and comment lines *)
Definition comment_line (l : bytes) : Prop := exists c r, l = c :: r /\ In c (B ";#%|*").
Definition between (ls : list bytes) : Prop := Forall (fun l => blanks l \/ (comment_line l /\ line_text l)) ls.
Inductive entries_are (e : env) : list transaction -> list bytes -> Prop :=
| ea_nil : entries_are e [] []
| ea_last t ls : transaction_lines e t ls -> entries_are e [t] ls
| ea_cons t ls sep rest ts more : transaction_lines e t ls -> blanks sep -> between rest -> entries_are e ts more ->
    entries_are e (t :: ts) (ls ++ sep :: rest ++ more).
(** lines of a text: each ends with LF or CR LF; the last one may end with the file *)
Inductive text_lines : list bytes -> bytes -> Prop :=
| tl_nil : text_lines [] []
| tl_last l : l <> [] -> text_lines [l] l
| tl_lf l ls t : text_lines ls t -> text_lines (l :: ls) (l ++ chr 10 :: t)
| tl_crlf l ls t : text_lines ls t -> text_lines (l :: ls) (l ++ chr 13 :: chr 10 :: t).
(** the files *)
Inductive file_is (e : env) : list transaction -> bytes -> Prop :=
| file_is_intro pre ts ls text : between pre -> entries_are e ts ls -> text_lines (pre ++ ls) text -> file_is e ts text.
