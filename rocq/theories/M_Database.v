(** Model of reading a whole database: coin.go Load, LoadFile, LoadPrices, LoadAll and include.go. *)
From Verif Require Import Base M_Amount M_Date M_Parser.

(** ** path/filepath: Clean, Dir, Join (Unix) *)
Definition slash : ascii := "/"%char.
(** filepath.Clean works on the components between slashes; [out] are the kept components, last first *)
Fixpoint clean_parts (rooted : bool) (out : list bytes) (parts : list bytes) : list bytes :=
  match parts with
  | [] => rev out
  | p :: r =>
      if eqb_bytes p [] || eqb_bytes p (B ".") then clean_parts rooted out r
      else if eqb_bytes p (B "..") then
        match out with
        | q :: out' => if eqb_bytes q (B "..") then clean_parts rooted (p :: out) r else clean_parts rooted out' r
        | [] => if rooted then clean_parts rooted [] r else clean_parts rooted [p] r
        end
      else clean_parts rooted (p :: out) r
  end.
Definition is_rooted (path : bytes) : bool := match path with c :: _ => eqc c slash | [] => false end.
Definition clean (path : bytes) : bytes :=
  let rooted := is_rooted path in
  let parts := clean_parts rooted [] (split_on slash path) in
  if rooted then slash :: join [slash] parts
  else match parts with [] => B "." | _ => join [slash] parts end.
(** filepath.Dir: Clean of everything up to and including the last slash *)
Definition dir (path : bytes) : bytes :=
  clean (match removelast (split_on slash path) with [] => [] | ps => join [slash] ps ++ [slash] end).
(** filepath.Join of a non-empty and any other element *)
Definition join_path (d p : bytes) : bytes := match p with [] => clean d | _ => clean (d ++ slash :: p) end.

(** The outside world: files by name, os.ExpandEnv, filepath.Glob (Fail: malformed pattern) and today *)
Record world := mkWorld { w_file : bytes -> option bytes; w_env : bytes -> bytes; w_glob : bytes -> res (list bytes); w_today : today }.

(** include.go:46-56 Include.Files; the path is not empty (include.go:25) *)
Definition include_pattern (w : world) (file path : bytes) : bytes :=
  w_env w (match path with
           | c :: _ => if eqc c slash then B "." ++ path else if eqc c "$"%char then path else join_path (dir file) path
           | [] => join_path (dir file) path
           end).
Definition include_files (w : world) (file path : bytes) : res (list bytes) := w_glob w (include_pattern w file path).

(** The globals filled by Load: Commodities (latest definition first; [commodity] is the identity and
    what amounts need), DefaultCommodityId, AccountsByName (latest first), Prices, Transactions, Tests.
    CommoditiesBySymbol is not used by coin itself. [d_next]: identity of the next commodity. *)
Record db := mkDb {
  d_next : nat; d_comms : list (bytes * (commodity * pcommodity)); d_default : bytes;
  d_accounts : list (bytes * paccount); d_prices : list pprice; d_txs : list (bytes * transaction); d_tests : list (bytes * ptest) }.
(** coin.go:28-47 *)
Definition empty_db : db := mkDb 0 [] (B "CAD") [] [] [] [].
(** m[k] of a map kept as a list with the latest entry first *)
Fixpoint lookup {A} (k : bytes) (m : list (bytes * A)) : option A :=
  match m with [] => None | (k', v) :: r => if eqb_bytes k k' then Some v else lookup k r end.
(** m[k] = v *)
Fixpoint store {A} (k : bytes) (v : A) (m : list (bytes * A)) : list (bytes * A) :=
  match m with [] => [(k, v)] | (k', v') :: r => if eqb_bytes k k' then (k, v) :: r else (k', v') :: store k v r end.
(** coin.go:55-60 *)
Definition find_comm (d : db) (id : bytes) : option commodity := match lookup id (d_comms d) with Some (c, _) => Some c | None => None end.
Definition db_env (w : world) (d : db) : env := mkEnv (find_comm d) (d_default d) (w_today w).

(** coin.go:99-116, what an entry of file [fn] other than an include does; [dflt] is DefaultCommodityId after reading it *)
Definition add_item (d : db) (fn : bytes) (i : item) (dflt : bytes) : res db :=
  match i with
  | ICommodity c =>
      let c' := mkCommodity (d_next d) (pc_id c) (pc_dec c) in
      Ok (mkDb (S (d_next d)) (store (pc_id c) (c', c) (d_comms d)) dflt (d_accounts d) (d_prices d) (d_txs d) (d_tests d))
  | IAccount a =>
      match pa_name a with
      | [] => Panic
      | n => Ok (mkDb (d_next d) (d_comms d) dflt (store n a (d_accounts d)) (d_prices d) (d_txs d) (d_tests d))
      end
  | IPrice p => Ok (mkDb (d_next d) (d_comms d) dflt (d_accounts d) (d_prices d ++ [p]) (d_txs d) (d_tests d))
  | ITransaction t => Ok (mkDb (d_next d) (d_comms d) dflt (d_accounts d) (d_prices d) (d_txs d ++ [(fn, t)]) (d_tests d))
  | ITest t => Ok (mkDb (d_next d) (d_comms d) dflt (d_accounts d) (d_prices d) (d_txs d) (d_tests d ++ [(fn, t)]))
  | IInclude _ _ => Ok d   (* not used *)
  end.

(** Loading: [None] means that the limit of open files is reached (each include keeps its file open, coin.go:88) *)
Definition obind {A C} (x : option (res A)) (f : A -> option (res C)) : option (res C) :=
  match x with Some (Ok a) => f a | Some Fail => Some Fail | Some Panic => Some Panic | None => None end.
(** coin.go:117-124 *)
Fixpoint load_included (rec : db -> bytes -> option (res db)) (fn : bytes) (files : list bytes) (d : db) : option (res db) :=
  match files with
  | [] => Some (Ok d)
  | f :: r => if eqb_bytes f fn then Some Fail else obind (rec d f) (load_included rec fn r)
  end.
(** coin.go:92-129 Load; [n] bounds the number of entries (one more than the lines is enough) *)
Fixpoint load_entries (rec : db -> bytes -> option (res db)) (w : world) (fn : bytes) (n : nat) (p : parser) (d : db) : option (res db) :=
  match n with
  | O => Some (Ok d)
  | S n' =>
      match next (db_env w d) p with
      | Fail => Some Fail | Panic => Some Panic
      | Ok None => Some (Ok d)
      | Ok (Some (IInclude path _, _, p')) =>
          match include_files w fn path with
          | Ok files => obind (load_included rec fn files d) (load_entries rec w fn n' p')
          | Fail => Some Fail | Panic => Some Panic
          end
      | Ok (Some (i, dflt, p')) => obind (Some (add_item d fn i dflt)) (load_entries rec w fn n' p')
      end
  end.
(** coin.go:85-90 LoadFile with at most [limit] files open at a time *)
Fixpoint load_file (limit : nat) (w : world) (d : db) (fn : bytes) : option (res db) :=
  match limit with
  | O => None
  | S k =>
      match w_file w fn with
      | None => Some Fail
      | Some text => load_entries (load_file k w) w fn (S (List.length (scan_lines text))) (new_parser text) d
      end
  end.
Fixpoint load_list (limit : nat) (w : world) (files : list bytes) (d : db) : option (res db) :=
  match files with [] => Some (Ok d) | f :: r => obind (load_file limit w d f) (load_list limit w r) end.
(** glob errors are ignored (coin.go:65,76): no files *)
Definition glob_files (w : world) (pat : bytes) : list bytes := match w_glob w pat with Ok l => l | _ => [] end.
(** filepath.Join(DB, name) with DB possibly empty *)
Definition in_dir (DB name : bytes) : bytes := match DB with [] => clean name | _ => clean (DB ++ slash :: name) end.
(** coin.go:62-72 LoadPrices *)
Definition load_prices (limit : nat) (w : world) (DB : bytes) (d : db) : option (res db) :=
  obind (load_file limit w d (in_dir DB (B "commodities.coin"))) (fun d1 =>
  match w_file w (in_dir DB (B "prices.coin")) with
  | None => load_list limit w (glob_files w (in_dir DB (B "*.prices"))) d1
  | Some _ => load_file limit w d1 (in_dir DB (B "prices.coin"))
  end).
(** coin.go:74-83 LoadAll up to ResolveAll *)
Definition load_files_all (limit : nat) (w : world) (DB : bytes) : option (res db) :=
  obind (load_prices limit w DB empty_db) (fun d1 =>
  obind (load_file limit w d1 (in_dir DB (B "accounts.coin"))) (fun d2 =>
  match w_file w (in_dir DB (B "transactions.coin")) with
  | None => load_list limit w (filter (fun f => negb (eqb_bytes f (in_dir DB (B "commodities.coin"))) && negb (eqb_bytes f (in_dir DB (B "accounts.coin"))))
                                (glob_files w (in_dir DB (B "*.coin")))) d2
  | Some _ => load_file limit w d2 (in_dir DB (B "transactions.coin"))
  end)).

(** ** ResolveAll *)
From Coq Require Import Permutation.
From Verif Require Import M_Convert M_Names M_Ledger.
Definition to_price (p : pprice) : price := mkPrice (pp_commodity p) (pp_currency p) (pp_value p) (pp_time p).
(** coin.go:170-173: the account a name means after ResolveAccounts, as it was read: Unbalanced is made anew even if a file declares it *)
Definition account_read (d : db) (n : bytes) : option paccount := if eqb_bytes n (B "Unbalanced") then None else lookup n (d_accounts d).
(** coin.go:219-223: the commodity of an account; account.go:98-104 accountFromName for accounts created on the way *)
Definition commodity_id (d : db) (n : bytes) : bytes :=
  match account_read d n with
  | Some a => match pa_commodity a with [] => d_default d | c => c end
  | None => d_default d
  end.
(** AccountsByName and Commodities after loading, the price lists, the tree, its accounts, and the ledger:
    registers and postings, postings whose balance assertion fails, transactions in order *)
Record book := mkBook { b_db : db; b_prices : pricedb; b_tree : tree; b_names : list bytes;
  b_ledger : ledger; b_warned : list nat; b_txs : list rtx }.
(** [comm] gives the commodity of every account: MustFindCommodity panics when it is not known *)
Definition commodities_known (d : db) (names : list bytes) (comm : bytes -> commodity) : Prop :=
  forall n, In n names -> find_comm d (commodity_id d n) = Some (comm n).
(** commodity.go:184-186 as AddIn uses it; the fuel is always enough (C10) *)
Definition book_conv (ps : pricedb) (o : map_order) : conversion :=
  fun c am c2 => match convert ps o c am c2 with Some r => r | None => Fail end.
(** coin.go:131-135 ResolveAll after loading; a relation because sort.Slice and the iteration of maps are free:
    [known], [o1], [o2], [o3] are orders of the accounts, [o] of the prices; [compile] is regexp matching (coin.go:310-333) *)
Definition resolve_all (compile : bytes -> bytes -> bool) (fuel : nat) (d : db) (comm : bytes -> commodity) (b : book) : Prop :=
  exists prices' known o1 o2 o3 o,
    resolve_prices (find_comm d) (map to_price (d_prices d)) (b_prices b) prices' /\
    Permutation known (base_accounts (map fst (d_accounts d))) /\ Permutation o1 (b_names b) /\ Permutation o2 (b_names b) /\ Permutation o3 (b_names b) /\
    resolve_accounts fuel (map fst (d_accounts d)) known o1 o2 = Ok (b_tree b, b_names b) /\
    commodities_known d (b_names b) comm /\ order_ok o /\
    (let '(L1, xs) := alloc_txs (mkLedger (fun _ => mkRP 0 [] [] None None false []) 0 (fun _ => []) (fun _ => None)) (map snd (d_txs d)) in
     resolve_transactions (must_find_account compile (b_names b)) comm (book_conv (b_prices b) o) o3 true L1 xs) = Ok (b_ledger b, b_warned b, b_txs b) /\
    b_db b = d.
(** coin.go:74-83 LoadAll; deeper trees than [fuel] do not occur: any larger bound gives the same *)
Definition load_all (limit : nat) (w : world) (DB : bytes) (compile : bytes -> bytes -> bool) (fuel : nat) (comm : bytes -> commodity) (b : book) : Prop :=
  exists d, load_files_all limit w DB = Some (Ok d) /\ resolve_all compile fuel d comm b.
