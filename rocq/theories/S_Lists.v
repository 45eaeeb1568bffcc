(** What the commands tags, stats, accounts and commodities print, said over the entries of the files. *)
From Coq Require Import Permutation Sorted.
From Verif Require Import Base M_Amount M_Date M_Tags M_Parser M_Writer M_Database M_Ledger M_Output S_Amount S_Names S_Books S_Report S_Database S_Coin.
Local Open Scope Z_scope.

(** ** The order of the transactions after loading *)
Definition asserting (t : transaction) : bool := existsb (fun s => match ps_balance s with Some _ => true | None => false end) (t_postings t).
(** [ts] are the transactions of the files by date; on each day those without balance assertions come first; otherwise in the
    order of the files. At most one list is like that. *)
Definition ordered_as_loaded (said ts : list (bytes * transaction)) : Prop :=
  Permutation ts said /\
  StronglySorted (fun v u => t_posted (snd v) < t_posted (snd u) \/
                             (t_posted (snd v) = t_posted (snd u) /\ (asserting (snd v) = true -> asserting (snd u) = true))) ts /\
  forall d (a : bool), filter (fun v => (t_posted (snd v) =? d) && Bool.eqb (asserting (snd v)) a) ts =
                       filter (fun v => (t_posted (snd v) =? d) && Bool.eqb (asserting (snd v)) a) said.
(** the account a posting names *)
Definition account_of (find : bytes -> res bytes) (s : posting) : bytes := match find (ps_account s) with Ok a => a | _ => [] end.

(** ** Tags *)
(** tag [k] has the value [v] somewhere *)
Definition tag_said (ts : list transaction) (k v : bytes) : Prop :=
  exists t, In t ts /\ (In (k, v) (parse_tags (t_notes t)) \/ exists s, In s (t_postings t) /\ In (k, v) (parse_tags (ps_notes s))).
Definition has_key (k : bytes) (notes : list bytes) : bool := existsb (eqb_bytes k) (map fst (parse_tags notes)).
(** the accounts used with tag [k]: of postings that have it, and of all postings of a transaction that has it *)
Definition accounts_said (find : bytes -> res bytes) (ts : list transaction) (k : bytes) : list bytes :=
  flat_map (fun t => flat_map (fun s => if has_key k (ps_notes s) then [account_of find s] else []) (t_postings t) ++
                     (if has_key k (t_notes t) then map (account_of find) (t_postings t) else [])) ts.

(** ** Stats *)
(** the transaction as printed: full account names, and the amounts left out filled in *)
Definition filled (find : bytes -> res bytes) (comm : bytes -> commodity) (t : transaction) : transaction :=
  mkTransaction (t_posted t) (t_code t) (t_desc t) (t_notes t)
    (map (fun s => mkPosting (account_of find s) (Some (mkAmount (value_of t s) (comm (account_of find s)))) (ps_balance s) (ps_notes s)) (t_postings t)) (t_line t).
(** file and line *)
Definition location (v : bytes * transaction) : bytes := match fst v with [] => [] | f => f ++ B ":" ++ print_nat (Z.of_nat (t_line (snd v))) end.
(** the same date, code and, posting by posting, accounts and amounts *)
Fixpoint same_postings (find : bytes -> res bytes) (t u : transaction) (ss rs : list posting) : bool :=
  match ss, rs with
  | [], [] => true
  | s :: ss, r :: rs => eqb_bytes (account_of find s) (account_of find r) && (value_of t s =? value_of u r) && same_postings find t u ss rs
  | _, _ => false
  end.
Definition looks_same (find : bytes -> res bytes) (t u : transaction) : bool :=
  (t_posted t =? t_posted u) && eqb_bytes (t_code t) (t_code u) && same_postings find t u (t_postings t) (t_postings u).
(** [x] and [y], in units of 10^-d and 10^-e, are the same; [y] is cut off to d decimals if it has more *)
Definition same_number (d : nat) (x : Z) (e : nat) (y : Z) : bool :=
  if (e <=? d)%nat then x =? y * 10 ^ Z.of_nat (d - e) else x =? Z.quot y (10 ^ Z.of_nat (e - d)).
(** one number of one commodity goes out of an account and the same number of another into the other *)
Definition converts_badly (find : bytes -> res bytes) (comm : bytes -> commodity) (t : transaction) : bool :=
  match t_postings t with
  | [s1; s2] => let c1 := comm (account_of find s1) in let c2 := comm (account_of find s2) in
                same_number (c_dec c1) (value_of t s1) (c_dec c2) (- value_of t s2) && negb (eq_commodity c1 c2)
  | _ => false
  end.
Definition printed (find : bytes -> res bytes) (comm : bytes -> commodity) (t : transaction) : res bytes :=
  write_transaction (fun a => c_dec (comm a)) (filled find comm t).
(** the three kinds of findings as text *)
Definition duplicate_text (find : bytes -> res bytes) (comm : bytes -> commodity) (u v : bytes * transaction) : res bytes :=
  do s1 <- printed find comm (snd u); do s2 <- printed find comm (snd v);
  Ok (B "DUPLICATE TRANSACTION?" ++ [nl] ++ location u ++ [nl] ++ s1 ++ [nl] ++ location v ++ [nl] ++ s2 ++ [nl]).
Definition unbalanced_text (find : bytes -> res bytes) (comm : bytes -> commodity) (v : bytes * transaction) : res bytes :=
  do s <- printed find comm (snd v); Ok (B "UNBALANCED TRANSACTION!" ++ [nl] ++ location v ++ [nl] ++ s ++ [nl]).
Definition conversion_text (find : bytes -> res bytes) (comm : bytes -> commodity) (v : bytes * transaction) : res bytes :=
  let t := snd v in
  match t_postings t with
  | s1 :: s2 :: _ => let c1 := comm (account_of find s1) in let c2 := comm (account_of find s2) in
      do q1 <- format_amount (mkAmount (value_of t s1) c1) (c_dec c1); do q2 <- format_amount (mkAmount (value_of t s2) c2) (c_dec c2);
      Ok (B "BAD CONVERSION: " ++ format_date (t_posted t) ++ B " " ++ q1 ++ B " " ++ c_id c1 ++ B " => " ++ q2 ++ B " " ++ c_id c2 ++ B " : " ++ location v ++ [nl])
  | _ => Ok []
  end.
Definition counts_text (commodities prices accounts transactions : nat) : bytes :=
  B "Commodities: " ++ print_nat (Z.of_nat commodities) ++ [nl] ++ B "Prices: " ++ print_nat (Z.of_nat prices) ++ [nl]
  ++ B "Accounts: " ++ print_nat (Z.of_nat accounts) ++ [nl] ++ B "Transactions: " ++ print_nat (Z.of_nat transactions) ++ [nl].
(** texts one after the other *)
Fixpoint texts (l : list (res bytes)) : res bytes :=
  match l with [] => Ok [] | x :: r => do s <- x; do rest <- texts r; Ok (s ++ rest) end.
(** the findings about one transaction: a bad conversion (with [fc]), and once for every posting to Unbalanced (with [fu]) *)
Definition findings (find : bytes -> res bytes) (comm : bytes -> commodity) (fu fc : bool) (v : bytes * transaction) : list (res bytes) :=
  (if fc && converts_badly find comm (snd v) then [conversion_text find comm v] else []) ++
  flat_map (fun s => if fu && eqb_bytes (account_of find s) (B "Unbalanced") then [unbalanced_text find comm v] else []) (t_postings (snd v)).

(** ** Accounts *)
(** [p] is [n] or above it *)
Inductive at_or_above (p : bytes) : bytes -> Prop :=
| aa_self : at_or_above p p
| aa_up n q : n <> B "Root" -> parent_of n q -> at_or_above p q -> at_or_above p n.
(** the declaration that counts: the last one, and none for Unbalanced (C151_unbalanced_refuted) *)
Definition declared (es : list event) (n : bytes) : option paccount := if eqb_bytes n (B "Unbalanced") then None else last_such (fun a => eqb_bytes n (pa_name a)) (ev_accounts es).
(** the account or one above it has a closing date *)
Definition closed_said (es : list event) (n : bytes) : Prop := exists p a d, at_or_above p n /\ declared es p = Some a /\ pa_closed a = Some d.
(** the line of an account *)
Definition account_line (es : list event) (width : nat) (n : bytes) : bytes :=
  let c := match declared es n with Some a => pa_commodity a | None => default_after es end in
  n ++ repeat " "%char (width - rune_count n) ++ B " | " ++ c ++ repeat " "%char (10 - rune_count c) ++ B " | "
  ++ match declared es n with Some a => pa_desc a | None => [] end ++ [nl].

(** ** Commodities *)
Definition defined (es : list event) (id : bytes) : option pcommodity := last_such (fun c => eqb_bytes id (pc_id c)) (ev_comms es).
Definition commodity_row (es : list event) (id : bytes) : bytes :=
  match defined es id with
  | Some c => repeat " "%char (10 - rune_count id) ++ id ++ B " | " ++ repeat " "%char (10 - rune_count (pc_symbol c)) ++ pc_symbol c ++ B " | "
              ++ (if negb (pc_nomarket c) && negb (eqb_bytes (pc_symbol c) []) then B "Q" else B " ") ++ B " | " ++ pc_name c ++ [nl]
  | None => []
  end.
