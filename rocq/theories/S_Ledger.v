(** Which fields can be written to a ledger file: said about texts, independent of the parser. *)
From Verif Require Import Base M_Amount M_Date M_Parser S_Decimal.

(** no line breaks *)
Definition line_text (s : bytes) : Prop := Forall (fun c => code c <> 10 /\ code c <> 13) s.
Definition starts_with (f : ascii -> bool) (s : bytes) : Prop := match s with c :: _ => f c = true | [] => False end.
(** commodity id: a letter, then letters, digits, '_' *)
Definition id_ok (s : bytes) : Prop := exists c r, s = c :: r /\ is_alpha c = true /\ forallb is_word r = true.
(** account name: segments joined by ':', each a letter followed by letters, digits, '_', '/', '-' *)
Definition name_char (c : ascii) : bool := is_word c || existsb (eqc c) (B "/-").
Definition seg_ok (s : bytes) : Prop := exists c r, s = c :: r /\ is_alpha c = true /\ forallb name_char r = true.
Definition name_ok (s : bytes) : Prop := exists segs, segs <> [] /\ Forall seg_ok segs /\ s = join (B ":") segs.
Definition space_or_tab (c : ascii) : bool := existsb (eqc c) (chr 9 :: B " ").
(** a note: not empty, one line, not starting with a space or tab *)
Definition note_ok (n : bytes) : Prop :=
  n <> [] /\ line_text n /\ ~ starts_with space_or_tab n.
(** code: letters, digits, '_'; may be empty *)
Definition code_ok (s : bytes) : Prop := forallb is_word s = true.
(** a description: one line without ';' that neither starts nor ends with white space *)
Definition desc_text_ok (s : bytes) : Prop :=
  line_text s /\ ~ In ";"%char s /\ ~ starts_with is_space s /\ ~ starts_with is_space (rev s).
(** it looks like a transaction code: "(word)..." *)
Definition code_like (s : bytes) : Prop :=
  exists w r, w <> [] /\ forallb is_word w = true /\ s = B "(" ++ w ++ B ")" ++ r.
(** an amount the ledger can hold: known commodity, int64 minor units, at most 50 decimals *)
Definition amount_ok (e : env) (a : amount) : Prop :=
  (c_dec (a_com a) <= 50)%nat /\ fits64 (a_int a) = true /\ id_ok (c_id (a_com a)) /\ e_find e (c_id (a_com a)) = Some (a_com a).
Definition posting_ok (e : env) (s : posting) : Prop :=
  name_ok (ps_account s) /\ (exists q, ps_quantity s = Some q /\ amount_ok e q) /\
  (forall b, ps_balance s = Some b -> amount_ok e b) /\ Forall note_ok (ps_notes s).
Definition header_ok (t : transaction) : Prop :=
  100 <= year_of (t_posted t) <= 9999 /\ code_ok (t_code t) /\ desc_text_ok (t_desc t) /\ Forall note_ok (t_notes t) /\
  (t_code t = [] -> ~ code_like (t_desc t)) /\
  (t_desc t = [] -> t_notes t = []).
Definition transaction_ok (e : env) (t : transaction) : Prop :=
  header_ok t /\ t_postings t <> [] /\ Forall (posting_ok e) (t_postings t).
(** equality of transactions up to the recorded line *)
Definition at_line (n : nat) (t : transaction) : transaction :=
  mkTransaction (t_posted t) (t_code t) (t_desc t) (t_notes t) (t_postings t) n.
Definition same_transaction (t t' : transaction) : Prop := at_line 0 t = at_line 0 t'.

(** the line an entry is introduced by *)
Definition header_line (i : item) (l : bytes) : Prop :=
  match i with
  | ITransaction _ => starts_with is_digit l
  | IAccount _ => exists r, l = B "account" ++ r
  | ICommodity _ => exists r, l = B "commodity " ++ r
  | IPrice _ => exists r, l = B "P " ++ r
  | ITest _ => exists r, l = B "test " ++ r
  | IInclude _ _ => exists r, l = B "include" ++ r
  end.
(** line [n] (counted from 1) of a text is [l] *)
Definition line_is (text : bytes) (n : nat) (l : bytes) : Prop :=
  (1 <= n)%nat /\ nth_error (split_on nl text) (n - 1) = Some l.
(** what a posting says apart from its notes *)
Definition posting_core (s : posting) : bytes * option amount * option amount := (ps_account s, ps_quantity s, ps_balance s).
Definition all_notes (t : transaction) : list bytes := t_notes t ++ concat (map ps_notes (t_postings t)).

(** definitions that can be written to a file and read back *)
Definition commodity_name_ok (n : bytes) : Prop := n = [] \/ (line_text n /\ starts_with (fun c => negb (is_space c)) n).
Definition commodity_ok (c : pcommodity) : Prop := id_ok (pc_id c) /\ commodity_name_ok (pc_name c).
Definition account_desc_ok (n : bytes) : Prop :=
  n = [] \/ (line_text n /\ starts_with (fun c => negb (is_space c)) n /\ (2 <= List.length n)%nat).
Definition account_ok (a : paccount) : Prop :=
  name_ok (pa_name a) /\ account_desc_ok (pa_desc a) /\ id_ok (pa_commodity a) /\
  (forall d, pa_closed a = Some d -> 100 <= year_of d <= 9999) /\
  forallb is_digit (pa_bankid a) = true /\ forallb is_digit (pa_acctid a) = true /\ forallb is_word (pa_csvid a) = true.
Definition price_ok (e : env) (p : pprice) : Prop :=
  100 <= year_of (pp_time p) <= 9999 /\ id_ok (pp_commodity p) /\ amount_ok e (pp_value p) /\ pp_currency p = c_id (a_com (pp_value p)).

(** entries that are written to files, and the same entry found at another line *)
Definition item_at (n : nat) (i : item) : item :=
  match i with
  | ITransaction t => ITransaction (at_line n t)
  | IAccount a => IAccount (mkPAccount (pa_name a) (pa_desc a) (pa_commodity a) (pa_closed a) (pa_bankid a) (pa_acctid a) (pa_csvid a) n)
  | ICommodity c => ICommodity (mkPCommodity (pc_id c) (pc_name c) (pc_dec c) (pc_nomarket c) (pc_symbol c) n)
  | IPrice p => IPrice (mkPPrice (pp_time p) (pp_commodity p) (pp_currency p) (pp_value p) n)
  | ITest t => ITest (mkPTest (pt_cmd t) (pt_result t) n)
  | IInclude f _ => IInclude f n
  end.
Definition same_item (i j : item) : Prop := item_at 0 i = item_at 0 j.
Definition item_ok (e : env) (i : item) : Prop :=
  match i with
  | ITransaction t => transaction_ok e t
  | IAccount a => account_ok a
  | ICommodity c => commodity_ok c /\ pc_symbol c = []
  | IPrice p => price_ok e p
  | _ => False
  end.
