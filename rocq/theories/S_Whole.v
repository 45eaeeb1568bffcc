(** How a whole database may be written by hand, and what it then says: definitions, prices, tests and
    includes beside the transactions of S_Written.v. Said about texts only: no parser, no regular expressions. *)
From Verif Require Import Base M_Amount M_Date M_Parser M_Database S_Decimal S_DateText S_Ledger S_Written S_Database.

(** the rest of a line, of which nothing is kept: spaces, or a comment after ';' *)
Definition trail (t : bytes) : Prop := exists ns, tail_is ns t.
(** text up to the end of a line *)
Definition value (v : bytes) : Prop := line_text v /\ starts_with (fun c => negb (is_space c)) v.

(** a line of an account definition and what it changes; a later line overrides an earlier one *)
Inductive account_line (td : today) : paccount -> bytes -> paccount -> Prop :=
| al_note n x c cl b a v ln sp sp2 y : gap sp -> gap sp2 -> value y -> (2 <= List.length y)%nat ->
    account_line td (mkPAccount n x c cl b a v ln) (sp ++ B "note" ++ sp2 ++ y) (mkPAccount n y c cl b a v ln)
| al_commodity n x c cl b a v ln sp sp2 y t : gap sp -> gap sp2 -> id_ok y -> trail t ->
    account_line td (mkPAccount n x c cl b a v ln) (sp ++ B "commodity" ++ sp2 ++ y ++ t) (mkPAccount n x y cl b a v ln)
| al_closed n x c cl b a v ln sp sp2 d y t : gap sp -> gap sp2 -> date_is td d y -> trail t ->
    account_line td (mkPAccount n x c cl b a v ln) (sp ++ B "closed" ++ sp2 ++ y ++ t) (mkPAccount n x c (Some d) b a v ln)
| al_bankid n x c cl b a v ln sp sp2 y t : gap sp -> gap sp2 -> y <> [] -> forallb is_digit y = true -> trail t ->
    account_line td (mkPAccount n x c cl b a v ln) (sp ++ B "ofx_bankid" ++ sp2 ++ y ++ t) (mkPAccount n x c cl y a v ln)
| al_acctid n x c cl b a v ln sp sp2 y t : gap sp -> gap sp2 -> y <> [] -> forallb is_digit y = true -> trail t ->
    account_line td (mkPAccount n x c cl b a v ln) (sp ++ B "ofx_acctid" ++ sp2 ++ y ++ t) (mkPAccount n x c cl b y v ln)
| al_csvid n x c cl b a v ln sp sp2 y t : gap sp -> gap sp2 -> y <> [] -> forallb is_word y = true -> trail t ->
    account_line td (mkPAccount n x c cl b a v ln) (sp ++ B "csv_acctid" ++ sp2 ++ y ++ t) (mkPAccount n x c cl b a y ln).
Inductive account_lines (td : today) : paccount -> list bytes -> paccount -> Prop :=
| als_nil a : account_lines td a [] a
| als_cons a l a1 ls a2 : account_line td a l a1 -> account_lines td a1 ls a2 -> account_lines td a (l :: ls) a2.

(** a line of a commodity definition; the second component is the default commodity *)
Inductive commodity_line : pcommodity * bytes -> bytes -> pcommodity * bytes -> Prop :=
| cl_note i x n m s ln d sp sp2 y : gap sp -> gap sp2 -> value y ->
    commodity_line (mkPCommodity i x n m s ln, d) (sp ++ B "note" ++ sp2 ++ y) (mkPCommodity i y n m s ln, d)
| cl_format i x n m s ln d sp sp2 l sp3 j t : gap sp -> gap sp2 -> lit_ok l -> gap sp3 -> id_ok j -> trail t ->
    commodity_line (mkPCommodity i x n m s ln, d) (sp ++ B "format" ++ sp2 ++ lit_text l ++ sp3 ++ j ++ t) (mkPCommodity i x (List.length (l_frac l)) m s ln, d)
| cl_nomarket i x n m s ln d sp t : gap sp -> trail t ->
    commodity_line (mkPCommodity i x n m s ln, d) (sp ++ B "nomarket" ++ t) (mkPCommodity i x n true s ln, d)
| cl_symbol i x n m s ln d sp sp2 y t : gap sp -> gap sp2 -> y <> [] -> forallb (fun c => is_word c || eqc c "."%char) y = true -> trail t ->
    commodity_line (mkPCommodity i x n m s ln, d) (sp ++ B "symbol" ++ sp2 ++ y ++ t) (mkPCommodity i x n m y ln, d)
| cl_default i x n m s ln d sp t : gap sp -> trail t ->
    commodity_line (mkPCommodity i x n m s ln, d) (sp ++ B "default" ++ t) (mkPCommodity i x n m s ln, i).
Inductive commodity_lines : pcommodity * bytes -> list bytes -> pcommodity * bytes -> Prop :=
| cls_nil c : commodity_lines c [] c
| cls_cons c l c1 ls c2 : commodity_line c l c1 -> commodity_lines c1 ls c2 -> commodity_lines c (l :: ls) c2.

(** the line that ends a test *)
Definition white (s : bytes) : Prop := Forall (fun c => In c (map chr [9; 10; 11; 12; 13; 32])) s.
Definition end_line (l : bytes) : Prop := exists b b', white b /\ white b' /\ l = b ++ B "end test" ++ b'.

(** an entry (its line number aside), the default commodity after it, and its lines; without further lines an account has
    the default commodity of that moment and a commodity two decimals *)
Inductive entry_is (e : env) : item -> bytes -> list bytes -> Prop :=
| ei_transaction t ls : transaction_lines e t ls -> entry_is e (ITransaction t) (e_default e) ls
| ei_account sp n t ls a : gap sp -> name_ok n -> trail t ->
    account_lines (e_today e) (mkPAccount n [] (e_default e) None [] [] [] 0) ls a ->
    entry_is e (IAccount a) (e_default e) ((B "account" ++ sp ++ n ++ t) :: ls)
| ei_commodity sp i t ls c d : blanks sp -> id_ok i -> trail t ->
    commodity_lines (mkPCommodity i [] 2 false [] 0, e_default e) ls (c, d) ->
    entry_is e (ICommodity c) d ((B "commodity " ++ sp ++ i ++ t) :: ls)
| ei_price d dt sp i sp2 l sp3 cur c t : date_is (e_today e) d dt -> gap sp -> id_ok i -> gap sp2 ->
    lit_ok l -> gap sp3 -> id_ok cur -> e_find e cur = Some c -> fits64 (lit_int l) = true -> (c_dec c <= 50)%nat -> (List.length (l_frac l) <= 50)%nat ->
    trail t -> entry_is e (IPrice (mkPPrice d i cur (mkAmount (Qfloor (lit_value l * pow10Q (c_dec c))) c) 0)) (e_default e)
      [B "P " ++ dt ++ sp ++ i ++ sp2 ++ lit_text l ++ sp3 ++ cur ++ t]
| ei_test sp cmd ls z : blanks sp -> value cmd -> Forall (fun l => line_text l /\ ~ end_line l) ls -> line_text z -> end_line z ->
    entry_is e (ITest (mkPTest cmd (concat (map (fun l => l ++ [chr 10]) ls)) 0)) (e_default e) ((B "test " ++ sp ++ cmd) :: ls ++ [z])
| ei_include sp path : gap sp -> value path -> entry_is e (IInclude path 0) (e_default e) [B "include" ++ sp ++ path].

(** a transaction ends at a blank line or at the end of the file; every other entry ends by itself *)
Definition ended (i : item) (rest : list bytes) : Prop :=
  match i with ITransaction _ => match rest with [] => True | l :: _ => blanks l end | _ => True end.
(** what files say, given what was said before: entries with blank lines and comments between them, and the
    entries of included files in the place of the include line. [n]: number of the first line. *)
Inductive file_says (w : world) : list event -> bytes -> list event -> Prop :=
| fs_file before fn text ls es : w_file w fn = Some text -> text_lines ls text -> lines_say w before fn 1 ls es -> file_says w before fn es
with lines_say (w : world) : list event -> bytes -> nat -> list bytes -> list event -> Prop :=
| ls_end before fn n pre : between pre -> lines_say w before fn n pre []
| ls_entry before fn n pre i d ls rest es : between pre -> entry_is (env_after w before) i d ls -> is_include i = false -> ended i rest ->
    lines_say w (before ++ [mkEvent fn (item_at (n + List.length pre) i) d]) fn (n + List.length pre + List.length ls) rest es ->
    lines_say w before fn n (pre ++ ls ++ rest) (mkEvent fn (item_at (n + List.length pre) i) d :: es)
| ls_include before fn n pre path d ls rest files es1 es2 : between pre -> entry_is (env_after w before) (IInclude path 0) d ls ->
    included w fn path files -> ~ In fn files -> all_say w before files es1 ->
    lines_say w (before ++ es1) fn (n + List.length pre + List.length ls) rest es2 ->
    lines_say w before fn n (pre ++ ls ++ rest) (es1 ++ es2)
with all_say (w : world) : list event -> list bytes -> list event -> Prop :=
| as_nil before : all_say w before [] []
| as_cons before f files es1 es2 : file_says w before f es1 -> all_say w (before ++ es1) files es2 -> all_say w before (f :: files) (es1 ++ es2).
Scheme says_ind2 := Induction for file_says Sort Prop
  with lines_ind2 := Induction for lines_say Sort Prop
  with alls_ind2 := Induction for all_say Sort Prop.
Combined Scheme says_ind from says_ind2, lines_ind2, alls_ind2.
