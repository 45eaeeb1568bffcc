(** What the commands print, said over the entries of the files. *)
From Verif Require Import Base M_Amount M_Date M_Tags M_Parser M_Report M_Coin S_Amount S_Names S_Books S_Report S_Output.
Local Open Scope Z_scope.

(** the value of a posting as written, or what the others leave *)
Definition value_of (t : transaction) (s : posting) : Z :=
  match ps_quantity s with Some q => a_int q | None => - zsum (map a_int (written (t_postings t))) end.
(** the options of balance: dates, a pattern for the description, one for the tags of the posting or the transaction *)
Definition wanted (rexm : bytes -> bytes -> bool) (begin end_ : option Z) (tag payee : bytes) (t : transaction) (s : posting) : bool :=
  in_range begin end_ (t_posted t) && match payee with [] => true | _ => rexm payee (t_desc t) end
  && tag_ok rexm tag (mkInfo (t_desc t) (parse_tags (ps_notes s)) (parse_tags (t_notes t))).
(** the posting is to account [x] *)
Definition goes_to (find : bytes -> res bytes) (x : bytes) (s : posting) : bool := match find (ps_account s) with Ok a => eqb_bytes a x | _ => false end.
(** the sum of what is posted to [x] *)
Definition posted_to (find : bytes -> res bytes) (want : transaction -> posting -> bool) (ts : list transaction) (x : bytes) : Z :=
  zsum (flat_map (fun t => map (value_of t) (filter (fun s => want t s && goes_to find x s) (t_postings t))) ts).
(** every written amount of a transaction is in the commodity of its account *)
Definition in_account_commodity (find : bytes -> res bytes) (comm : bytes -> commodity) (t : transaction) : Prop :=
  forall s q a, In s (t_postings t) -> ps_quantity s = Some q -> find (ps_account s) = Ok a -> a_com q = comm a.
(** a line of the listing; [id x] names the commodity of [x] *)
Definition listing_row (c : commodity) (id : bytes -> bytes) (own total : bytes -> Z) (x : bytes) (l : list bytes) : Prop :=
  exists t1 t2 c1 c2 c3, shows_amount t1 (mkAmount (own x) c) /\ shows_amount t2 (mkAmount (total x) c) /\ right_set t1 c1 /\ right_set t2 c2 /\
    left_set (id x) c3 /\ l = [c1; c2 ++ B " " ++ c3; x].

(** ** The register *)
(** a posting in the files: its transaction and its place there *)
Definition row := (transaction * nat)%type.
Definition row_date (r : row) : Z := t_posted (fst r).
Definition rows_of (ts : list transaction) : list row := flat_map (fun t => map (pair t) (seq 0 (List.length (t_postings t)))) ts.
Definition posting_of (r : row) : option posting := nth_error (t_postings (fst r)) (snd r).
Definition row_value (r : row) : Z := match posting_of r with Some s => value_of (fst r) s | None => 0 end.
(** selected by the options of register (a payee beginning with ! excludes), and posted to account [x] *)
Definition row_chosen (rexm : bytes -> bytes -> bool) (begin end_ : option Z) (tag payee : bytes) (find : bytes -> res bytes) (x : bytes) (r : row) : bool :=
  match posting_of r with
  | Some s => in_range begin end_ (row_date r) && payee_ok rexm payee (t_desc (fst r))
              && tag_ok rexm tag (mkInfo (t_desc (fst r)) (parse_tags (ps_notes s)) (parse_tags (t_notes (fst r)))) && goes_to find x s
  | None => false
  end.
(** the line of a posting: date, description, the account of the first other posting (with -r after its own), quantity and
    running total, in commodity [c], which [id] names; a mark if the posting asserts a balance, then the notes if asked for *)
Definition file_line (find : bytes -> res bytes) (c : commodity) (id : bytes -> bytes) (long : bool) (acc : bytes) (size : Z) (notes : bool) (r : row) (total : Z)
    (line : list bytes * bytes) : Prop :=
  let t := fst r in
  exists s other a ao r1 l1 r2 l2 tq tt c_desc c_acc c_other c_qty c_total,
    posting_of r = Some s /\ nth_error (t_postings t) (if (snd r =? 0)%nat then 1 else 0) = Some other /\
    find (ps_account s) = Ok a /\ find (ps_account other) = Ok ao /\
    right_set (t_desc t) c_desc /\
    name_after acc a r1 /\ abbreviated size r1 l1 /\ right_set l1 c_acc /\
    name_after acc ao r2 /\ abbreviated size r2 l2 /\ right_set l2 c_other /\
    shows_amount tq (mkAmount (value_of t s) c) /\ right_set tq c_qty /\ shows_amount tt (mkAmount total c) /\ right_set tt c_total /\
    fst line = [format_date (t_posted t); c_desc] ++ (if long then [c_acc] else []) ++ [c_other; c_qty; c_total] /\
    snd line = B " " ++ id a ++ (match ps_balance s with Some _ => B "*" | None => B " " end) ++ [chr 10]
               ++ (if notes then flat_map (fun n => repeat " "%char (List.length (format_date (t_posted t))) ++ B " ; " ++ n ++ [chr 10])
                                   (ps_notes s ++ t_notes t) else []).

(** ** The aggregated register *)
(** the category of a posting: the description, or (with [tags]) its tags as text, see C71 *)
Definition row_category (tags : bool) (r : row) : bytes :=
  if tags then match posting_of r with Some s => tag_category (parse_tags (t_notes (fst r))) (parse_tags (ps_notes s)) | None => [] end else t_desc (fst r).
(** periods: the first day of the one a day is in (weeks begin on Sundays), and its text *)
Definition first_day (p : period) (d : Z) : Z :=
  match p with
  | Weekly => d - weekday d
  | Monthly => d - (day_of d - 1)
  | Quarterly => go_date (year_of d) (if month_of d <=? 3 then 1 else if month_of d <=? 6 then 4 else if month_of d <=? 9 then 7 else 10) 1
  | Yearly => go_date (year_of d) 1 1
  end.
Definition period_text (p : period) : Z -> bytes :=
  match p with
  | Weekly => format_date
  | Monthly => fun d => format_year (year_of d) ++ B "/" ++ pad_zero 2 (print_nat (month_of d))
  | Quarterly => fun d => format_year (year_of d) ++ B "/" ++ pad_zero 2 (print_nat (month_of d))
  | Yearly => fun d => format_year (year_of d)
  end.
(** it belongs on the line of period [t] and category [k] *)
Definition on_line (reduce : option (Z -> Z)) (category : option (row -> bytes)) (t : Z) (k : bytes) (r : row) : bool :=
  (match reduce with Some f => f (row_date r) | None => 0 end =? t) && match category with Some c => eqb_bytes k (c r) | None => true end.
(** it belongs there or on an earlier line *)
Definition up_to (reduce : option (Z -> Z)) (t : Z) (r : row) : bool := match reduce with Some f => f (row_date r) | None => 0 end <=? t.
(** the sum of those of [rows] that are wanted *)
Definition sum_of (rows : list row) (P : row -> bool) : Z := zsum (map row_value (filter P rows)).
