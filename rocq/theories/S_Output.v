(** Printed reports: what users mean. *)
From Coq Require Import QArith.
From Verif Require Import Base M_Amount M_Date M_Names M_Ledger M_Json S_Decimal S_Amount S_Names S_Books.
Local Open Scope Z_scope.

(** ** Characters *)
(** Unicode characters and their UTF-8 encoding *)
Definition character (c : Z) : Prop := 0 <= c < 55296 \/ 57344 <= c < 1114112.
Definition utf8 (c : Z) : bytes :=
  if c <? 128 then [chr c]
  else if c <? 2048 then [chr (192 + c / 64); chr (128 + c mod 64)]
  else if c <? 65536 then [chr (224 + c / 4096); chr (128 + c / 64 mod 64); chr (128 + c mod 64)]
  else [chr (240 + c / 262144); chr (128 + c / 4096 mod 64); chr (128 + c / 64 mod 64); chr (128 + c mod 64)].
Definition utf8_text (l : list Z) : bytes := flat_map utf8 l.

(** ** Columns *)
(** [s] with blanks before it, after it *)
Definition right_set (s col : bytes) : Prop := exists n, col = repeat " "%char n ++ s.
Definition left_set (s col : bytes) : Prop := exists n, col = s ++ repeat " "%char n.
(** every line has the same columns in characters, counted by [chars] *)
Definition aligned (chars : bytes -> nat) (lines : list (list bytes)) : Prop :=
  exists ws, forall l, In l lines -> map chars l = ws.
(** a table as text: the columns of a line separated by " | " *)
Definition table_line (cols : list bytes) : bytes := join (B " | ") cols ++ [chr 10].
Definition table_text (lines : list (list bytes)) : bytes := flat_map table_line lines.
(** the text is the amount: a decimal number with the decimals of the commodity and exactly the value *)
Definition shows_amount (text : bytes) (a : amount) : Prop :=
  exists l, text = lit_text l /\ lit_ok l /\ List.length (l_frac l) = c_dec (a_com a) /\ (lit_value l == value a)%Q.
(** [x] comes before [y] *)
Definition comes_before {A} (l : list A) (x y : A) : Prop := exists l1 l2 l3, l = l1 ++ x :: l2 ++ y :: l3.

(** ** Reading CSV (RFC 4180, lines ending in LF): rows of fields, None if malformed *)
Inductive csv_state := AtField | Plain | Quoted | QuoteSeen.
Fixpoint csv_scan (st : csv_state) (field : bytes) (row : list bytes) (s : bytes) : option (list (list bytes)) :=
  let close := row ++ [field] in
  match s with
  | [] => match st with
          | Quoted => None
          | AtField => match row with [] => Some [] | _ => Some [close] end
          | _ => Some [close]
          end
  | c :: r =>
      match st with
      | Quoted => if eqc c """"%char then csv_scan QuoteSeen field row r else csv_scan Quoted (field ++ [c]) row r
      | _ => if eqc c ","%char then csv_scan AtField [] close r
             else if code c =? 10 then match csv_scan AtField [] [] r with Some rs => Some (close :: rs) | None => None end
             else match st with
                  | QuoteSeen => if eqc c """"%char then csv_scan Quoted (field ++ [c]) row r else None
                  | AtField => if eqc c """"%char then csv_scan Quoted [] row r else csv_scan Plain [c] row r
                  | _ => if eqc c """"%char then None else csv_scan Plain (field ++ [c]) row r
                  end
      end
  end.
Definition read_csv (s : bytes) : option (list (list bytes)) := csv_scan AtField [] [] s.

(** ** Reading lines of JSON *)
Definition text_lines (s : bytes) : list bytes := removelast (split_on (chr 10) s).
Fixpoint all_some {A C} (f : A -> option C) (l : list A) : option (list C) :=
  match l with
  | [] => Some []
  | x :: r => match f x, all_some f r with Some y, Some ys => Some (y :: ys) | _, _ => None end
  end.
Definition strings_of (v : json) : option (list bytes) :=
  match v with JArr l => all_some (fun x => match x with JStr s => Some s | _ => None end) l | _ => None end.
Definition read_json_lines (s : bytes) : option (list (list bytes)) :=
  all_some (fun l => match json_parse l with Some v => strings_of v | None => None end) (text_lines s).

(** ** Levels *)
(** the level of an account in a tree: 1 at the top *)
Inductive at_level (parent : bytes -> option bytes) : bytes -> nat -> Prop :=
| level_top x : parent x = None \/ parent x = Some (B "Root") -> at_level parent x 1
| level_below x p n : parent x = Some p -> p <> B "Root" -> at_level parent p n -> at_level parent x (S n).
(** amounts the program can print: at most 50 decimals, fewer than 50 digits *)
Definition printable (a : amount) : Prop := (c_dec (a_com a) <= 50)%nat /\ Z.abs (a_int a) < 10 ^ 50.

(** ** Registers *)
(** the first other posting of a transaction *)
Definition first_other (posts : list nat) (p q : nat) : Prop := q <> p /\ exists l r, posts = l ++ q :: r /\ Forall (eq p) l.
(** the name [a] without the beginning [acc] *)
Definition name_after (acc a rest : bytes) : Prop := a = acc ++ rest \/ (~ exists r, a = acc ++ r) /\ rest = a.
(** a name abbreviated to at most [size] bytes, if one letter per segment allows it (C50) *)
Definition abbreviated (size : Z) (n short : bytes) : Prop := forall segs, segments n segs ->
  exists segs', segments short segs' /\ Forall2 (fun s' s => (exists r, s = s' ++ r) /\ (s <> [] -> s' <> [])) segs' segs /\
    (Z.of_nat (List.length n) <= size -> short = n) /\ (size < Z.of_nat (List.length n) -> Z.of_nat (List.length short) = Z.max size (shortest segs)).
Definition fits (size : Z) (acc a : bytes) : Prop := forall rest segs, name_after acc a rest -> segments rest segs -> shortest segs <= size.
(** the line of posting [p]: columns, and what follows the last of them: the commodity, a mark for asserted balances, the
    location and the notes *)
Definition register_row (L : ledger) (tx_of : nat -> rtx) (cid : bytes -> bytes) (long : bool) (acc : bytes) (size : Z) (notes : bool)
    (loc : option (rtx -> bytes)) (p : nat) (total : amount) (line : list bytes * bytes) : Prop :=
  exists q qty r1 l1 r2 l2 tq tt c_desc c_acc c_other c_qty c_total, let x := tx_of p in
    first_other (x_posts x) p q /\ rp_qty (heap L p) = Some qty /\
    right_set (x_desc x) c_desc /\
    name_after acc (rp_acc (heap L p)) r1 /\ abbreviated size r1 l1 /\ right_set l1 c_acc /\
    name_after acc (rp_acc (heap L q)) r2 /\ abbreviated size r2 l2 /\ right_set l2 c_other /\
    shows_amount tq qty /\ right_set tq c_qty /\ shows_amount tt total /\ right_set tt c_total /\
    fst line = [format_date (x_posted x); c_desc] ++ (if long then [c_acc] else []) ++ [c_other; c_qty; c_total] /\
    snd line = B " " ++ cid (rp_acc (heap L p)) ++ (if rp_asserted (heap L p) then B "*" else B " ")
               ++ (match loc with Some f => B "| " ++ f x | None => [] end) ++ [chr 10]
               ++ (if notes then flat_map (fun n => repeat " "%char (List.length (format_date (x_posted x))) ++ B " ; " ++ n ++ [chr 10])
                                   (rp_notes (heap L p) ++ x_notes x) else []).
Definition register_text (lines : list (list bytes * bytes)) : bytes := flat_map (fun l => join (B " | ") (fst l) ++ snd l) lines.

(** ** Aggregated registers *)
(** the heading of a column: the selected account by its own name, others by their abbreviated name after it *)
Definition heading (account : bytes) (size : Z) (k : option bytes) (label : bytes) : Prop :=
  match k with
  | None => label = B "Other"
  | Some x => (x = account -> leaf_of account label) /\ (x <> account -> exists rest, name_after account x rest /\ abbreviated size rest label)
  end.
(** the rows of the table: date (if by period), category (if by category), one amount per column *)
Definition table_row (period category : bool) (ptext : Z -> bytes) (r : Z * bytes * list amount) (row : list bytes) : Prop :=
  exists texts, Forall2 shows_amount texts (snd r) /\
    row = (if period then [ptext (fst (fst r))] else []) ++ (if category then [snd (fst r)] else []) ++ texts.
