(** What the values of csv sources mean, and what becomes of a row. *)
From Verif Require Import Base M_Amount M_Date M_Ledger M_Rules S_Rules S_Date S_Books S_Commands M_Csv.

(** ** templates: text, then parts that start with a dollar *)
Inductive part :=
| PGroup (d : ascii) (t : bytes)     (* "$1text": a group of the match, then text *)
| PNamed (n : bytes) (t : bytes)     (* "${name}text": the value of a field, then text *)
| PPlain (t : bytes).                (* "$text": the text without the dollar *)
Definition part_text (p : part) : bytes :=
  match p with
  | PGroup d t => "$"%char :: d :: t
  | PNamed n t => "$"%char :: "{"%char :: n ++ "}"%char :: t
  | PPlain t => "$"%char :: t
  end.
Record template := mkTemplate { t_start : bytes; t_parts : list part }.
Definition template_text (t : template) : bytes := t_start t ++ flat_map part_text (t_parts t).
Definition no (c : ascii) (s : bytes) : Prop := ~ In c s.
(** templates of extraction rules: groups and plain text *)
Definition direct_part_ok (p : part) : Prop :=
  match p with
  | PGroup d t => is_digit d = true /\ no "$"%char t
  | PNamed _ _ => False
  | PPlain t => t <> [] /\ no "$"%char t /\ forall d r, t = d :: r -> is_digit d = false
  end.
(** templates of derivation rules: names and plain text *)
Definition derived_part_ok (p : part) : Prop :=
  match p with
  | PGroup _ _ => False
  | PNamed n t => no "$"%char n /\ no "}"%char n /\ no "$"%char t
  | PPlain t => t <> [] /\ no "$"%char t /\ forall r, t = "{"%char :: r -> no "}"%char r
  end.
Definition direct_ok (t : template) : Prop := no "$"%char (t_start t) /\ Forall direct_part_ok (t_parts t).
Definition derived_ok (t : template) : Prop := no "$"%char (t_start t) /\ Forall derived_part_ok (t_parts t).
(** the text an extraction makes of the groups *)
Definition direct_fill (groups : list bytes) (t : template) : bytes :=
  t_start t ++ flat_map (fun p => match p with
                                  | PGroup d r => nth (Z.to_nat (digit_val d)) groups [] ++ r
                                  | PNamed _ r | PPlain r => r end) (t_parts t).

(** ** values *)
Section Values.
Variable rexm : bytes -> bytes -> option (list bytes).
Variable row : list bytes.
Variable fm : fmap.
(** [named n v]: the value of the field called n is v, that is the first one of its definitions that is not empty *)
Inductive named : bytes -> bytes -> Prop :=
| nm n v : first_of (fields_of fm n) v -> named n v
with first_of : list field -> bytes -> Prop :=
| fo_none : first_of [] []
| fo_here f fs v : defined f v -> v <> [] -> first_of (f :: fs) v
| fo_next f fs v : defined f [] -> first_of fs v -> first_of (f :: fs) v
with defined : field -> bytes -> Prop :=
(** a column of the row *)
| df_column i out c v : 0 <= i -> nth_error row (Z.to_nat i) = Some v -> defined (mkField (Some i) out c None) v
(** what is extracted from a column *)
| df_extract i t c re v gs : 0 <= i -> nth_error row (Z.to_nat i) = Some v -> rexm re v = Some gs -> direct_ok t ->
    defined (mkField (Some i) (template_text t) c (Some re)) (direct_fill gs t)
| df_no_extract i out c re v : 0 <= i -> nth_error row (Z.to_nat i) = Some v -> rexm re v = None ->
    defined (mkField (Some i) out c (Some re)) []
(** what is made of other values, when the condition holds *)
| df_derived t re vs : derived_ok t -> filled (t_parts t) vs ->
    defined (mkField None (template_text t) [] re) (t_start t ++ vs)
| df_when t c re v gs vs : c <> [] -> named c v -> rexm re v = Some gs -> derived_ok t -> filled (t_parts t) vs ->
    defined (mkField None (template_text t) c (Some re)) (t_start t ++ vs)
| df_not out c re v : c <> [] -> named c v -> rexm re v = None -> defined (mkField None out c (Some re)) []
with filled : list part -> bytes -> Prop :=
| fl_nil : filled [] []
| fl_named n t ps v vs : named n v -> filled ps vs -> filled (PNamed n t :: ps) (v ++ t ++ vs)
| fl_plain t ps vs : filled ps vs -> filled (PPlain t :: ps) (t ++ vs).
End Values.

(** ** accounts *)
(** [under children a b]: b is a or an account below it *)
Inductive under (children : bytes -> list bytes) : bytes -> bytes -> Prop :=
| under_self a : under children a a
| under_child a c b : In c (children a) -> under children c b -> under children a b.
(** the tree below a has at most n levels *)
Fixpoint levels (children : bytes -> list bytes) (n : nat) (a : bytes) : Prop :=
  match n with O => False | S m => forall c, In c (children a) -> levels children m c end.
(** [holds_in children comm root c a]: a is the account for commodity c at or below root; Unbalanced when there is none.
    None of the accounts below a is one. *)
Definition holds_in (children : bytes -> list bytes) (comm : bytes -> commodity) (root : bytes) (c : commodity) (a : bytes) : Prop :=
  (a = unbalanced /\ forall b, under children root b -> comm b = c -> b = unbalanced) \/
  (a <> unbalanced /\ under children root a /\ comm a = c /\
   forall k b, In k (children a) -> under children k b -> comm b = c -> b = unbalanced).

(** ** rows *)
(** the transaction has two postings: [fa] to [from] and [ta] to [to]; when [fa] is negative the other one comes first *)
Definition two_postings (L : ledger) (x : rtx) (from : bytes) (fa : amount) (to : bytes) (ta : amount) : Prop :=
  exists p q, p <> q /\ x_posts x = (if a_int fa <? 0 then [q; p] else [p; q]) /\
  heap L p = mkRP (x_posted x) [] from (Some fa) None false [] /\ heap L q = mkRP (x_posted x) [] to (Some ta) None false [].
Definition opposite (a : amount) : amount := mkAmount (- a_int a) (a_com a).

Section Rows.
Variable matches : bytes -> bytes -> bool.
Variable rexm : bytes -> bytes -> option (list bytes).
Variable comm : bytes -> commodity.
Variable children : bytes -> list bytes.
Variable by_ofx_id : bytes -> option bytes.
Variable by_id by_symbol : bytes -> option commodity.
Variable fm : fmap.
Variable ri : rindex.
Definition known (n : bytes) (c : commodity) : Prop := by_id n = Some c \/ by_id n = None /\ by_symbol n = Some c.
Definition becomes_row (L : ledger) (row : list bytes) (o : option rtx) : Prop :=
  let is n v := named rexm row fm (B n) v in
  exists acct descr ws ars rs found,
  is "account"%string acct /\ is "description"%string descr /\ spaced descr ws /\
  account_rules_for by_ofx_id ri acct = Ok ars /\ expands (ri_sets ri) (ar_rules ars) rs /\
  first_match matches (join (B " ") ws) rs found /\
  match found with
  | Some (mkRule None _ _) => o = None
  | _ =>
      let rule_account := match found with Some (mkRule (Some a) _ _) => a | _ => unbalanced end in
      let rule_notes := match found with Some r => r_notes r | None => [] end in
      exists x note nws amt currency c amount to symbol,
      o = Some x /\ x_code x = [] /\ x_desc x = join (B " ") ws /\
      is "date"%string (format_date (x_posted x)) /\ 0 <= year_of (x_posted x) <= 9999 /\
      is "note"%string note /\ spaced note nws /\ x_notes x = match nws with [] => rule_notes | _ => [join (B " ") nws] end /\
      is "amount"%string amt /\ amt <> [] /\
      is "currency"%string currency /\ (currency = [] /\ c = comm rule_account \/ currency <> [] /\ known currency c) /\
      parse_amount amt c = Ok amount /\ a_com amount = c /\
      holds_in children comm rule_account c to /\
      is "symbol"%string symbol /\
      ((symbol = [] \/ symbol <> [] /\ (exists sc, known symbol sc) /\ is "quantity"%string []) /\
       (exists from, holds_in children comm (ar_account ars) c from /\ two_postings L x from amount to (opposite amount))
       \/
       symbol <> [] /\
       exists sc q quantity given from, known symbol sc /\ is "quantity"%string q /\ q <> [] /\ parse_amount q sc = Ok given /\
         (quantity = given \/ quantity = opposite given /\ 0 < a_int given * a_int amount) /\
         a_int quantity * a_int amount <= 0 /\ a_com quantity = sc /\
         holds_in children comm (ar_account ars) sc from /\ two_postings L x from quantity to amount)
  end.
End Rows.

(** ** files *)
(** the rows after [skip] header rows, all of one length: that of the last header row if there is one *)
Definition data_rows (skip : nat) (rows data : list (list bytes)) : Prop :=
  exists headers, rows = headers ++ data /\ List.length headers = skip /\
  exists n, Forall (fun r => List.length r = n) data /\ forall h hs, headers = hs ++ [h] -> h <> [] -> List.length h = n.
