(** Model of the resolved ledger: account.go (registers, CheckPostings, adopt, traversal), coin.go
    (ResolveAccounts, ResolveTransactions), transaction.go (order, Day, Post, IsEqual, MergeDuplicate, drop),
    posting.go (MoveTo, drop). *)
From Verif Require Import Base M_Amount M_Regex M_Parser M_Names.

(** ** Store *)
(** posting.go:10-21. A posting pointer is a number, the key of the store [heap]. [rp_date] is
    Transaction.Posted (never changed after parsing), [rp_acc] the full name of Account ([] = nil): there is
    one account object per name. Tags are a function of the notes (M_Tags). *)
Record rposting := mkRP {
  rp_date : Z; rp_name : bytes; rp_acc : bytes; rp_qty : option amount; rp_bal : option amount;
  rp_asserted : bool; rp_notes : list bytes }.
(** transaction.go:18-30 *)
Record rtx := mkTx { x_posted : Z; x_code : bytes; x_desc : bytes; x_notes : list bytes; x_posts : list nat; x_line : nat }.
(** Postings by pointer, [a.Postings] and [a.balance] by account. Simplification: slices are lists, i.e. no
    second slice shares the array of a register that is changed in place. *)
Record ledger := mkLedger { heap : nat -> rposting; nxt : nat; reg : bytes -> list nat; bal : bytes -> option amount }.

Definition updn {A} (f : nat -> A) (k : nat) (v : A) : nat -> A := fun i => if (i =? k)%nat then v else f i.
Definition updb {A} (f : bytes -> A) (k : bytes) (v : A) : bytes -> A := fun i => if eqb_bytes i k then v else f i.
Definition set_post (L : ledger) (p : nat) (v : rposting) : ledger := mkLedger (updn (heap L) p v) (nxt L) (reg L) (bal L).
Definition set_reg (L : ledger) (a : bytes) (r : list nat) : ledger := mkLedger (heap L) (nxt L) (updb (reg L) a r) (bal L).
Definition set_bal (L : ledger) (a : bytes) (b : amount) : ledger := mkLedger (heap L) (nxt L) (reg L) (updb (bal L) a (Some b)).
Definition with_acc (v : rposting) (a : bytes) : rposting :=
  mkRP (rp_date v) (rp_name v) a (rp_qty v) (rp_bal v) (rp_asserted v) (rp_notes v).
Definition with_qty (v : rposting) (q : amount) : rposting :=
  mkRP (rp_date v) (rp_name v) (rp_acc v) (Some q) (rp_bal v) (rp_asserted v) (rp_notes v).
Definition with_bal (v : rposting) (b : option amount) (as_ : bool) : rposting :=
  mkRP (rp_date v) (rp_name v) (rp_acc v) (rp_qty v) b as_ (rp_notes v).

(** ** Registers *)
(** account.go:246-257 the scan over the postings of the same day; [i] is the index of the head of [rest] *)
Fixpoint same_day_scan (date : nat -> Z) (p : nat) (rest : list nat) (i : nat) : nat * bool :=
  match rest with
  | [] => (i, false)
  | q :: r => if date q =? date p then if (q =? p)%nat then (i, true) else same_day_scan date p r (S i) else (i, false)
  end.
(** account.go:239-260 findPosting; sort.Find is sort.Search for cmp(i) <= 0 followed by the test cmp(i) == 0 *)
Definition find_posting (date : nat -> Z) (ps : list nat) (p : nat) : nat * bool :=
  let i := search (List.length ps) (fun i => date p <=? date (nth i ps O)) in
  if (i <? List.length ps)%nat && (date (nth i ps O) =? date p) then same_day_scan date p (skipn i ps) i
  else (i, false).
(** account.go:262-270 deletePosting *)
Definition delete_posting (date : nat -> Z) (ps : list nat) (p : nat) : list nat :=
  let '(i, found) := find_posting date ps p in
  if found then firstn i ps ++ skipn (S i) ps else ps.
(** account.go:272-288 addPosting *)
Definition add_posting (date : nat -> Z) (ps : list nat) (p : nat) : list nat :=
  let '(i, found) := find_posting date ps p in
  if found then ps else firstn i ps ++ p :: skipn i ps.
Definition dates (L : ledger) : nat -> Z := fun p => rp_date (heap L p).
Definition add_to (L : ledger) (a : bytes) (p : nat) : ledger := set_reg L a (add_posting (dates L) (reg L a) p).
Definition delete_from (L : ledger) (a : bytes) (p : nat) : ledger := set_reg L a (delete_posting (dates L) (reg L a) p).
(** posting.go:70-77 MoveTo *)
Definition move_to (L : ledger) (p : nat) (a : bytes) : ledger :=
  if eqb_bytes (rp_acc (heap L p)) a then L
  else let L := delete_from L (rp_acc (heap L p)) p in
       let L := add_to L a p in
       set_post L p (with_acc (heap L p) a).
(** account.go:233-237 sortPostings *)
Definition sort_postings (L : ledger) (a : bytes) : ledger :=
  set_reg L a (stable_sort (fun p q => dates L p <? dates L q) (reg L a)).

(** ** Transactions entered into the store as they are parsed (transaction.go:169-188); BalanceAsserted is set
    exactly when a balance was read *)
Fixpoint alloc_postings (L : ledger) (date : Z) (ps : list posting) : ledger * list nat :=
  match ps with
  | [] => (L, [])
  | s :: r =>
      let n := nxt L in
      let v := mkRP date (ps_account s) [] (ps_quantity s) (ps_balance s)
                    (match ps_balance s with Some _ => true | None => false end) (ps_notes s) in
      let '(L', ids) := alloc_postings (mkLedger (updn (heap L) n v) (S n) (reg L) (bal L)) date r in
      (L', n :: ids)
  end.
Fixpoint alloc_txs (L : ledger) (ts : list transaction) : ledger * list rtx :=
  match ts with
  | [] => (L, [])
  | t :: r =>
      let '(L1, ids) := alloc_postings L (t_posted t) (t_postings t) in
      let '(L2, xs) := alloc_txs L1 r in
      (L2, mkTx (t_posted t) (t_code t) (t_desc t) (t_notes t) ids (t_line t) :: xs)
  end.

(** ** ResolveTransactions, coin.go:235-279 *)
Section Resolve.
(** MustFindAccount, the Commodity of each account, and the conversion used by AddIn *)
Variable find : bytes -> res bytes.
Variable comm : bytes -> commodity.
Variable conv : conversion.

(** coin.go:240-245 *)
Fixpoint enter (L : ledger) (ids : list nat) : res ledger :=
  match ids with
  | [] => Ok L
  | p :: r =>
      do a <- find (rp_name (heap L p));
      let L := set_post L p (with_acc (heap L p) a) in
      enter (add_to L a p) r
  end.
(** the keys of the map commodities *)
Fixpoint distinct (cs : list commodity) : list commodity :=
  match cs with
  | [] => []
  | c :: r => if existsb (eq_commodity c) r then distinct r else c :: distinct r
  end.
(** coin.go:256-265; a second posting without quantity ends the program *)
Fixpoint total_loop (L : ledger) (ids : list nat) (empty : option nat) (total : amount) : res (option nat * amount) :=
  match ids with
  | [] => Ok (empty, total)
  | p :: r =>
      match rp_qty (heap L p) with
      | None => match empty with None => total_loop L r (Some p) total | Some _ => Fail end
      | Some q => do t <- add_in conv total q; total_loop L r empty t
      end
  end.
(** coin.go:236-271, the body of the loop over transactions. A transaction without postings has no
    commodity, its total is zero and nothing else happens. *)
Definition resolve_tx (L : ledger) (x : rtx) : res ledger :=
  do L <- enter L (x_posts x);
  let cs := map (fun p => comm (rp_acc (heap L p))) (x_posts x) in
  if (1 <? List.length (distinct cs))%nat then
    if forallb (fun p => match rp_qty (heap L p) with Some _ => true | None => false end) (x_posts x) then Ok L else Fail
  else
    match cs with
    | [] => Ok L
    | c0 :: _ =>
        do et <- total_loop L (x_posts x) None (zero_amount (last cs c0));
        match fst et with
        | None => if is_zero (snd et) then Ok L else Fail
        | Some p => Ok (set_post L p (with_qty (heap L p) (negated (snd et))))
        end
    end.
Fixpoint resolve_txs (L : ledger) (xs : list rtx) : res ledger :=
  match xs with [] => Ok L | x :: r => do L <- resolve_tx L x; resolve_txs L r end.

(** account.go:152-157 Balance *)
Definition balance_of (L : ledger) (a : bytes) : amount :=
  match bal L a with Some b => b | None => zero_amount (comm a) end.
(** account.go:184-206 CheckPostings, the loop; warnings are collected as posting pointers.
    A posting without quantity (nil dereference) panics. *)
Fixpoint check_loop (L : ledger) (a : bytes) (ps : list nat) : res (ledger * list nat) :=
  match ps with
  | [] => Ok (L, [])
  | p :: r =>
      match rp_qty (heap L p) with
      | None => Panic
      | Some q =>
          do b <- add_in conv (balance_of L a) q;
          let L := set_bal L a b in
          match rp_bal (heap L p) with
          | Some b' =>
              do e <- is_equal b b';
              do Lw <- check_loop L a r;
              Ok (fst Lw, if e then snd Lw else p :: snd Lw)
          | None => check_loop (set_post L p (with_bal (heap L p) (Some b) (rp_asserted (heap L p)))) a r
          end
      end
  end.
Definition check_postings (L : ledger) (a : bytes) : res (ledger * list nat) := check_loop L a (reg L a).

(** coin.go:273-278; [accounts] is the map AccountsByName in the order of this iteration *)
Fixpoint finish_accounts (chk : bool) (L : ledger) (accounts : list bytes) : res (ledger * list nat) :=
  match accounts with
  | [] => Ok (L, [])
  | a :: r =>
      let L := sort_postings L a in
      do Lw <- (if chk then check_postings L a else Ok (L, []));
      do Lw' <- finish_accounts chk (fst Lw) r;
      Ok (fst Lw', snd Lw ++ snd Lw')
  end.
End Resolve.

(** transaction.go:260-267 HasBalanceAssertions *)
Definition has_assertions (L : ledger) (x : rtx) : bool := existsb (fun p => rp_asserted (heap L p)) (x_posts x).
(** transaction.go:47-52 Less *)
Definition tx_less (L : ledger) (x y : rtx) : bool :=
  (x_posted x <? x_posted y) ||
  ((x_posted x =? x_posted y) && negb (has_assertions L x) && has_assertions L y).
(** coin.go:235-279; [xs] is Transactions, the result is the store, the warnings and Transactions afterwards *)
Definition resolve_transactions (find : bytes -> res bytes) (comm : bytes -> commodity) (conv : conversion)
    (accounts : list bytes) (chk : bool) (L : ledger) (xs : list rtx) : res (ledger * list nat * list rtx) :=
  do L <- resolve_txs find comm conv L xs;
  do Lw <- finish_accounts comm conv chk L accounts;
  Ok (fst Lw, snd Lw, stable_sort (tx_less (fst Lw)) xs).

(** transaction.go:66-79 Day *)
Definition day (xs : list rtx) (d : Z) : list rtx :=
  let dflt := mkTx 0 [] [] [] [] O in
  let total := List.length xs in
  let start := search total (fun i => negb (x_posted (nth i xs dflt) <? d)) in
  if (start =? total)%nat then []
  else let count := search (total - start) (fun i => d <? x_posted (nth (start + i) xs dflt)) in
       firstn count (skipn start xs).

(** transaction.go:34-39, 299-304, posting.go:79-81 *)
Definition drop_posting (L : ledger) (p : nat) : ledger := delete_from L (rp_acc (heap L p)) p.
Definition drop_transactions (L : ledger) (xs : list rtx) : ledger :=
  fold_left (fun L x => fold_left drop_posting (x_posts x) L) xs L.

(** transaction.go:221-249 PostConversion: result is the store and t.Postings *)
Definition post_conversion (L : ledger) (x : rtx) (from : bytes) (fa : amount) (fb : option amount)
    (to : bytes) (ta : amount) (tb : option amount) : ledger * rtx :=
  let asserted (b : option amount) := match b with Some _ => true | None => false end in
  let sF := nxt L in
  let L := mkLedger (updn (heap L) sF (mkRP (x_posted x) [] from (Some fa) fb (asserted fb) [])) (S sF) (reg L) (bal L) in
  let L := add_to L from sF in
  let sT := nxt L in
  let L := mkLedger (updn (heap L) sT (mkRP (x_posted x) [] to (Some ta) tb (asserted tb) [])) (S sT) (reg L) (bal L) in
  let L := add_to L to sT in
  let ids := if a_int fa <? 0 then [sT; sF] else [sF; sT] in
  (L, mkTx (x_posted x) (x_code x) (x_desc x) (x_notes x) (x_posts x ++ ids) (x_line x)).
(** transaction.go:212-219 Post *)
Definition post (L : ledger) (x : rtx) (from to : bytes) (am : amount) (balance : option amount) : ledger * rtx :=
  post_conversion L x from am balance to (negated am) None.
(** transaction.go:251-258 Other *)
Definition other (x : rtx) (p : nat) : option nat := List.find (fun q => negb (q =? p)%nat) (x_posts x).

(** posting.go:65-68 IsEqual; a nil quantity panics *)
Definition posting_equal (L : ledger) (p q : nat) : res bool :=
  if eqb_bytes (rp_acc (heap L p)) (rp_acc (heap L q)) then
    match rp_qty (heap L p), rp_qty (heap L q) with
    | Some a, Some b => is_equal a b
    | _, _ => Panic
    end
  else Ok false.
(** transaction.go:269-285 IsEqual (receiver [x]) *)
Fixpoint postings_equal (L : ledger) (ps qs : list nat) : res bool :=
  match ps, qs with
  | p :: ps', q :: qs' => do e <- posting_equal L q p; if e then postings_equal L ps' qs' else Ok false
  | _, _ => Ok true
  end.
Definition tx_equal (L : ledger) (x y : rtx) : res bool :=
  if negb (x_posted x =? x_posted y) then Ok false
  else if negb (eqb_bytes (x_code x) (x_code y)) then Ok false
  else if negb (List.length (x_posts x) =? List.length (x_posts y))%nat then Ok false
  else postings_equal L (x_posts x) (x_posts y).
(** transaction.go:53-60 FindEqual: returns its argument *)
Fixpoint find_equal (L : ledger) (xs : list rtx) (t : rtx) : res (option rtx) :=
  match xs with
  | [] => Ok None
  | x :: r => do e <- tx_equal L x t; if e then Ok (Some t) else find_equal L r t
  end.
(** transaction.go:287-294 MergeDuplicate; index out of range panics *)
Fixpoint merge_postings (L : ledger) (ps qs : list nat) : res ledger :=
  match ps, qs with
  | [], _ => Ok L
  | _ :: _, [] => Panic
  | p :: ps', q :: qs' =>
      let L := match rp_bal (heap L p), rp_bal (heap L q) with
               | None, Some b => set_post L p (with_bal (heap L p) (Some b) (rp_asserted (heap L q)))
               | _, _ => L
               end in
      merge_postings L ps' qs'
  end.
Definition merge_duplicate (L : ledger) (x y : rtx) : res ledger := merge_postings L (x_posts x) (x_posts y).

(** What Transaction.Write (transaction.go:81-117, posting.go:23-52) prints of a resolved transaction: full account
    names, quantities, and balances only if asserted. M_Writer turns it into text. *)
Definition as_written (L : ledger) (x : rtx) : transaction :=
  mkTransaction (x_posted x) (x_code x) (x_desc x) (x_notes x)
    (map (fun p => let v := heap L p in
                   mkPosting (rp_acc v) (rp_qty v) (if rp_asserted v then rp_bal v else None) (rp_notes v)) (x_posts x))
    (x_line x).

(** ** Accounts: coin.go:162-233 *)
(** Parent and Children of each account *)
Record tree := mkTree { t_parent : bytes -> option bytes; t_children : bytes -> list bytes }.
(** account.go:208-213 WithChildrenDo, the accounts in the order of the calls; the fuel bounds the depth of the
    recursion, every bound beyond the depth of the tree gives the same list *)
Fixpoint with_children (fuel : nat) (ch : bytes -> list bytes) (a : bytes) : list bytes :=
  match fuel with O => [] | S f => a :: flat_map (with_children f ch) (ch a) end.
(** account.go:215-220 FirstWithChildrenDo *)
Fixpoint first_with_children (fuel : nat) (ch : bytes -> list bytes) (a : bytes) : list bytes :=
  match fuel with O => [] | S f => flat_map (first_with_children f ch) (ch a) ++ [a] end.
Definition mem (a : bytes) (l : list bytes) : bool := existsb (eqb_bytes a) l.
(** account.go:222-231 adopt *)
Definition adopt (fuel : nat) (T : tree) (a c : bytes) : res tree :=
  if mem a (with_children fuel (t_children T) c) then Panic
  else if mem c (with_children fuel (t_children T) a) then Panic
  else Ok (mkTree (updb (t_parent T) c (Some a)) (updb (t_children T) a (t_children T a ++ [c]))).

Definition root : bytes := B "Root".
Definition unbalanced : bytes := B "Unbalanced".
(** AccountsByName[n] = accountFromName(n), on the list of keys *)
Definition ensure (n : bytes) (names : list bytes) : list bytes := if mem n names then names else names ++ [n].
(** coin.go:179-190, the loop over the ancestors of one name; fuel: its length *)
Fixpoint add_parents (fuel : nat) (fn : bytes) (names : list bytes) : list bytes :=
  match fuel with
  | O => names
  | S f => match parent_name fn with [] => names | fn' => add_parents f fn' (ensure fn' names) end
  end.
(** coin.go:192-205 linking *)
Fixpoint link (fuel : nat) (T : tree) (names : list bytes) (order : list bytes) : res tree :=
  match order with
  | [] => Ok T
  | a :: r =>
      if eqb_bytes a root then link fuel T names r
      else match parent_name a with
           | [] => do T <- adopt fuel T root a; link fuel T names r
           | p => if mem p names then do T <- adopt fuel T p a; link fuel T names r else Fail
           end
  end.
(** coin.go:225-228: sort.Slice of the children by Name *)
Definition child_less (a b : bytes) : bool := less_bytes (snd (parent_and_name a)) (snd (parent_and_name b)).
Definition sort_children (T : tree) (order : list bytes) : tree :=
  fold_left (fun T a => mkTree (t_parent T) (updb (t_children T) a (stable_sort child_less (t_children T a)))) order T.
(** coin.go:162-233 up to the commodities; [names] are the declared accounts, [known], [o1], [o2] the orders of the
    three iterations over the map. Simplification: siblings have different names ("Root:A" beside "A" is the only
    exception, there sort.Slice may leave them in either order). *)
Definition with_parents (known names : list bytes) : list bytes :=
  fold_left (fun ns a => add_parents (List.length a) a ns) known names.
Definition base_accounts (names : list bytes) : list bytes := ensure unbalanced (ensure root names).
Definition resolve_accounts (fuel : nat) (names known o1 o2 : list bytes) : res (tree * list bytes) :=
  let all := with_parents known (base_accounts names) in
  do T <- link fuel (mkTree (fun _ => None) (fun _ => [])) all o1;
  Ok (sort_children T o2, all).

(** account.go:159-164 IsClosed; [closed] : the account has a closing date; the fuel bounds the depth *)
Fixpoint is_closed (fuel : nat) (T : tree) (closed : bytes -> bool) (a : bytes) : bool :=
  match fuel with
  | O => false
  | S f => (match t_parent T a with Some p => is_closed f T closed p | None => false end) || closed a
  end.
(** account.go:177-182 Depth *)
Fixpoint depth (fuel : nat) (T : tree) (a : bytes) : nat :=
  match fuel with
  | O => O
  | S f => match t_parent T a with
           | None => 1%nat
           | Some p => if eqb_bytes p root then 1%nat else S (depth f T p)
           end
  end.

(** ** cmd/coin/balance.go:45-68: totals and cumulative, on the quantities of the selected postings *)
Definition balances := list (bytes * amount).
Fixpoint bget (a : bytes) (m : balances) : option amount :=
  match m with [] => None | (k, v) :: r => if eqb_bytes a k then Some v else bget a r end.
Fixpoint bset (a : bytes) (v : amount) (m : balances) : balances :=
  match m with [] => [(a, v)] | (k, w) :: r => if eqb_bytes a k then (k, v) :: r else (k, w) :: bset a v r end.
Fixpoint sum_in (conv : conversion) (a : amount) (l : list amount) : res amount :=
  match l with [] => Ok a | b :: r => do a' <- add_in conv a b; sum_in conv a' r end.
Fixpoint own_totals (conv : conversion) (comm : bytes -> commodity) (sel : bytes -> list amount) (accs : list bytes)
    (m : balances) : res balances :=
  match accs with
  | [] => Ok m
  | a :: r => do t <- sum_in conv (zero_amount (comm a)) (sel a); own_totals conv comm sel r (bset a t m)
  end.
Fixpoint cumulate (conv : conversion) (T : tree) (accs : list bytes) (m : balances) : res balances :=
  match accs with
  | [] => Ok m
  | a :: r =>
      match t_parent T a with
      | None => cumulate conv T r m                        (* cumulative[nil] *)
      | Some p =>
          match bget p m with
          | None => cumulate conv T r m
          | Some cump =>
              match bget a m with
              | None => Panic
              | Some cum => do c <- add_in conv cump cum; cumulate conv T r (bset p c m)
              end
          end
      end
  end.
Definition balance_report (fuel : nat) (conv : conversion) (comm : bytes -> commodity) (T : tree)
    (sel : bytes -> list amount) (account : bytes) : res (balances * balances) :=
  do totals <- own_totals conv comm sel (with_children fuel (t_children T) account) [];
  do cum <- cumulate conv T (first_with_children fuel (t_children T) account) totals;
  Ok (totals, cum).
