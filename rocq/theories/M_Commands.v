(** Model of the commands that rewrite transaction files: cmd/coin/format.go, cmd/coin/modify.go. The file system
    side (temporary file, remove, rename) is in M_Files.v. *)
From Verif Require Import Base M_Amount M_Regex M_Date M_Parser M_Writer M_Names M_Tags M_Ledger.

(** ** cmd/coin/format.go *)
(** bufio.ScanWords (Go standard library): the words of a line, separated by white space. Simplification: bytes are
    characters, so the Unicode spaces beyond ASCII are not separators; a word
    longer than the scanner's 64KiB buffer, which ends the scan, is not modelled *)
Fixpoint words_loop (s : bytes) (w : bytes) : list bytes :=
  match s with
  | [] => match w with [] => [] | _ => [rev w] end
  | c :: r =>
      if is_ascii_space c then match w with [] => words_loop r [] | _ => rev w :: words_loop r [] end
      else words_loop r (c :: w)
  end.
Definition words (s : bytes) : list bytes := words_loop s [].
(** cmd/coin/utils.go:48-63 trimWS, for one of its arguments: there is one result per argument *)
Definition trim_ws (s : bytes) : bytes := join (B " ") (words s).
(** format.go:70-73: description and notes of the transaction, not the notes of the postings *)
Definition trim_tx (t : transaction) : transaction :=
  mkTransaction (t_posted t) (t_code t) (trim_ws (t_desc t)) (map trim_ws (t_notes t)) (t_postings t) (t_line t).

Section Files.
Variable e : env.
Variable find : bytes -> res bytes.
Variable comm : bytes -> commodity.
Variable conv : conversion.
Variable accounts : list bytes.

(** format.go:68-77 writeTransactions *)
Definition format_write (trim : bool) (L : ledger) (xs : list rtx) : res bytes :=
  write_transactions (fun a => c_dec (comm a)) (map (fun x => let t := as_written L x in if trim then trim_tx t else t) xs).
(** format.go:47-65, the loop body for one file with the text [text]: the store afterwards and the text written.
    coin.go:92-129 Load: here only the transactions of the file matter; a file that also defines accounts,
    commodities or prices changes [find], [comm], [conv] for the rest of the run, which is not modelled. *)
Definition format_file (trim : bool) (L : ledger) (text : bytes) : res (ledger * bytes) :=
  do items <- read_text e text;
  let '(L1, xs) := alloc_txs L (transactions_of items) in
  do r <- resolve_transactions find comm conv accounts false L1 xs;
  let '(L2, _, sorted) := r in
  do out <- format_write trim L2 sorted;
  Ok (drop_transactions L2 sorted, out).
(** format.go:47: the files one after another *)
Fixpoint format_files (trim : bool) (L : ledger) (texts : list bytes) : res (ledger * list bytes) :=
  match texts with
  | [] => Ok (L, [])
  | t :: r => do x <- format_file trim L t; do y <- format_files trim (fst x) r; Ok (fst y, snd x :: snd y)
  end.

(** ** cmd/coin/modify.go *)
(** modify.go:18-34: nil pointers are None, [] for the two tag lines *)
Record modify_cmd := mkModify {
  m_from : option bytes; m_to : option bytes; m_payee : option (bytes -> bool);
  m_ttag : option tag_matcher; m_ptag : option tag_matcher; m_set_ttag : bytes; m_set_ptag : bytes }.
Definition with_notes (v : rposting) (ns : list bytes) : rposting :=
  mkRP (rp_date v) (rp_name v) (rp_acc v) (rp_qty v) (rp_bal v) (rp_asserted v) ns.
(** modify.go:138-148 modifyPosting. p.Tags is computed when the posting is read (transaction.go, posting.go) and not
    updated here; the loop looks at each posting's tags before changing its notes *)
Definition modify_posting (m : modify_cmd) (L : ledger) (p : nat) : ledger * bool :=
  let '(L, b) := match m_to m with Some a => (move_to L p a, true) | None => (L, false) end in
  match m_set_ptag m with
  | [] => (L, b)
  | line => (set_post L p (with_notes (heap L p) (add_tag_line (rp_notes (heap L p)) line)), true)
  end.
Definition is_from (m : modify_cmd) (a : bytes) : bool :=
  match m_from m with Some f => eqb_bytes a f | None => false end.
(** modify.go:119-127, the loop over the postings: the store, hasPostingsMatchingAccount and modified. The tags of a
    posting are those of its notes as read: [tags] maps postings to them *)
Fixpoint modify_loop (m : modify_cmd) (ptags : nat -> tags) (ps : list nat) (L : ledger) (has modified : bool) : ledger * bool * bool :=
  match ps with
  | [] => (L, has, modified)
  | p :: r =>
      let '(L, has, modified) :=
        if is_from m (rp_acc (heap L p)) then
          if modified then (L, true, true) else let '(L, b) := modify_posting m L p in (L, true, b)
        else (L, has, modified) in
      let '(L, modified) :=
        if match m_ptag m with Some tm => tags_match tm (ptags p) | None => false end then
          if modified then (L, true) else modify_posting m L p
        else (L, modified) in
      modify_loop m ptags r L has modified
  end.
(** modify.go:111-137 *)
Definition modify_tx (m : modify_cmd) (ptags : nat -> tags) (L : ledger) (x : rtx) : ledger * rtx * bool :=
  if match m_payee m with Some f => negb (f (x_desc x)) | None => false end then (L, x, false)
  else if match m_ttag m with Some tm => negb (tags_match tm (parse_tags (x_notes x))) | None => false end then (L, x, false)
  else
    let '(L, has, modified) := modify_loop m ptags (x_posts x) L false false in
    if match m_from m with Some _ => negb has | None => false end then (L, x, modified)
    else
      let notes := match m_set_ttag m with [] => x_notes x | line => add_tag_line (x_notes x) line end in
      (L, mkTx (x_posted x) (x_code x) (x_desc x) notes (x_posts x) (x_line x), modified).
(** modify.go:94-101: transactions are modified and written one after another; (store, texts, count) *)
Fixpoint modify_txs (m : modify_cmd) (ptags : nat -> tags) (L : ledger) (xs : list rtx) : res (ledger * bytes * nat) :=
  match xs with
  | [] => Ok (L, [], O)
  | x :: r =>
      let '(L, x', b) := modify_tx m ptags L x in
      do out <- write_transaction (fun a => c_dec (comm a)) (as_written L x');
      do y <- modify_txs m ptags L r;
      let '(L, outs, n) := y in
      Ok (L, out ++ [nl] ++ outs, ((if b then 1 else 0) + n)%nat)
  end.
(** modify.go:89-108, one file: the store, the new text and the count reported *)
Definition modify_file (m : modify_cmd) (L : ledger) (text : bytes) : res (ledger * bytes * nat) :=
  do items <- read_text e text;
  let '(L1, xs) := alloc_txs L (transactions_of items) in
  do r <- resolve_transactions find comm conv accounts false L1 xs;
  let '(L2, _, sorted) := r in
  do y <- modify_txs m (fun p => parse_tags (rp_notes (heap L2 p))) L2 sorted;
  let '(L3, out, n) := y in
  Ok (drop_transactions L3 sorted, out, n).
End Files.
