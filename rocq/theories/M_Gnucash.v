(** Model of gnucash/*.go and of cmd/gc2coin/main.go (ledger = false). Decompression and XML decoding are given: a book is
    what xml.Decode returns, restricted to the fields that are used. *)
From Verif Require Import Base M_Amount M_Regex M_Date M_Parser M_Writer M_Names M_Ledger M_Files.

(** gnucash/commodity.go:29-39, price.go:27-37, account.go:52-64, split.go:30-39, transaction.go:52-61 *)
Record gcommodity := mkGCommodity { gc_id : bytes; gc_name : bytes; gc_code : bytes; gc_fraction : Z }.
Record gprice := mkGPrice { gp_commodity : bytes; gp_currency : bytes; gp_date : bytes; gp_value : bytes }.
Record gaccount := mkGAccount { ga_guid : bytes; ga_name : bytes; ga_type : bytes; ga_commodity : bytes; ga_parent : bytes;
                                ga_code : bytes; ga_desc : bytes; ga_slots : list (bytes * bytes) }.
Record gsplit := mkGSplit { gs_account : bytes; gs_memo : bytes; gs_quantity : bytes }.
Record gtrans := mkGTrans { gt_num : bytes; gt_posted : bytes; gt_desc : bytes; gt_splits : list gsplit }.
Record book := mkBook { bk_accounts : list gaccount; bk_commodities : list gcommodity; bk_prices : list gprice;
                        bk_trans : list gtrans }.

(** ** Times: gnucash.go:62-71 *)
(** time.Time with the offset it was written with: day number (M_Date), seconds within that day, offset in seconds *)
Record stamp := mkStamp { st_day : Z; st_secs : Z; st_off : Z }.
(** the instant, in seconds: what Before and After compare *)
Definition instant (s : stamp) : Z := st_day s * 86400 + st_secs s - st_off s.
Definition two (a b : ascii) : Z := 10 * digit_val a + digit_val b.
(** time.Parse("2006-01-02 15:04:05 -0700"). Simplification: Go also reads an hour of one digit, fractions of seconds and
    repeated spaces, which GnuCash does not write; these are refused here. *)
Definition parse_stamp (s : bytes) : res stamp :=
  match s with
  | [y1; y2; y3; y4; h1; m1; m2; h2; d1; d2; b1; H1; H2; c1; M1; M2; c2; S1; S2; b2; sg; z1; z2; z3; z4] =>
      let y := 100 * two y1 y2 + two y3 y4 in
      let m := two m1 m2 in let d := two d1 d2 in
      if forallb is_digit [y1; y2; y3; y4; m1; m2; d1; d2; H1; H2; M1; M2; S1; S2; z1; z2; z3; z4]
         && eqb_bytes [h1; h2; b1; c1; c2; b2] (B "-- :: ") && (eqc sg "-"%char || eqc sg "+"%char)
         && (1 <=? m) && (m <=? 12) && (1 <=? d) && (d <=? days_before m - days_before (m - 1) + (if is_leap y && (m =? 2) then 1 else 0))
         && (two H1 H2 <? 24) && (two M1 M2 <? 60) && (two S1 S2 <? 60) && (two z1 z2 <=? 24) && (two z3 z4 <=? 60)
      then Ok (mkStamp (go_date y m d) (3600 * two H1 H2 + 60 * two M1 M2 + two S1 S2)
                       ((if eqc sg "-"%char then -1 else 1) * (3600 * two z1 z2 + 60 * two z3 z4)))
      else Panic
  | _ => Panic
  end.

Section Gnucash.
(** the value big.Int.SetString leaves behind when it fails ("undefined" by its documentation; the error is ignored) *)
Variable junk : bytes -> Z.
(** sort.Slice: not stable, see S_Gnucash.sorts for what is assumed of it *)
Variable ssort : forall A, (A -> A -> bool) -> list A -> list A.
Arguments ssort {A}.

(** math/big Int.SetString(s, 10) *)
Definition set_string (s : bytes) : Z :=
  let ds := snd (split_sign s) in
  if forallb is_digit ds && negb (List.length ds =? 0)%nat then if fst (split_sign s) then - digits_val ds else digits_val ds
  else junk s.
(** gnucash.go:74-87 mustParseAmount (c not nil) *)
Definition gnc_amount (f : bytes) (c : commodity) : res amount :=
  match split_on "/"%char f with
  | [n; d] => if set_string d <=? 0 then Panic else new_amount_frac (set_string n) (set_string d) c
  | _ => Panic
  end.

(** ** Commodities: gnucash/commodity.go:41-57 *)
(** coin.Commodities: the pointers are the positions in the file; a later one with the same id takes the place of an earlier one *)
Definition commodity_at (cs : list gcommodity) (i : nat) : commodity :=
  let c := nth i cs (mkGCommodity [] [] [] 0) in mkCommodity i (gc_id c) (Z.to_nat (set_fraction (gc_fraction c))).
Fixpoint find_from (i : nat) (cs : list gcommodity) (id : bytes) : option nat :=
  match cs with
  | [] => None
  | c :: r => match find_from (S i) r id with Some j => Some j | None => if eqb_bytes (gc_id c) id then Some i else None end
  end.
Definition find_commodity_at (cs : list gcommodity) (id : bytes) : option commodity :=
  option_map (commodity_at cs) (find_from 0 cs id).

(** ** Prices: gnucash/price.go:39-61. The tables of the single commodities (used for conversions only) are left out. *)
Record cprice := mkCPrice { cp_commodity : commodity; cp_currency : commodity; cp_value : amount; cp_time : stamp }.
Definition price_from (cs : list gcommodity) (p : gprice) : res cprice :=
  match find_commodity_at cs (gp_currency p) with
  | None => Panic                                        (* nil.Decimals *)
  | Some cur =>
      do v <- gnc_amount (gp_value p) cur;
      do t <- parse_stamp (gp_date p);
      match find_commodity_at cs (gp_commodity p) with
      | None => Panic                                    (* nil.Prices *)
      | Some c => Ok (mkCPrice c cur v t)
      end
  end.
Definition resolve_prices (cs : list gcommodity) (ps : list gprice) : res (list cprice) :=
  do l <- res_map (price_from cs) ps;
  Ok (ssort (fun p q => instant (cp_time p) <? instant (cp_time q)) l).

(** ** Accounts: gnucash/account.go *)
(** account.go:67-72; strings.Replace(name, " ", "", -1) *)
Definition gnc_name (n : bytes) : bytes :=
  if eqb_bytes n (B "Root Account") then B "Root" else filter (fun c => negb (eqc c " "%char)) n.
(** account.go:150-158 mustFindAccount: AccountsByGuid, a later account with the same guid takes the place of an earlier one *)
Fixpoint by_guid (l : list gaccount) (g : bytes) : option gaccount :=
  match l with
  | [] => None
  | a :: r => match by_guid r g with Some b => Some b | None => if eqb_bytes (ga_guid a) g then Some a else None end
  end.
(** account.go:125-127; Parent is nil exactly for the accounts without a parent guid *)
Definition is_root (a : gaccount) : bool := eqb_bytes (ga_type a) (B "ROOT") || eqb_bytes (ga_parent a) [].
(** account.go:129-139 buildFullName. The cache a.FullName is left out: it holds what would be computed again. Panic: the
    stack overflows (a chain of parents longer than the number of accounts is endless) or the parent is unknown. *)
Fixpoint full_name (fuel : nat) (l : list gaccount) (a : gaccount) : res bytes :=
  match fuel with
  | O => Panic
  | S f =>
      if is_root a then Ok (gnc_name (ga_name a))
      else match by_guid l (ga_parent a) with
           | None => Panic
           | Some p => if is_root p then Ok (gnc_name (ga_name a))
                       else do n <- full_name f l p; Ok (n ++ B ":" ++ gnc_name (ga_name a))
           end
  end.
(** account.go:99-103, 141-148: `((?P<bank>\d+)\s+)?(?P<acct>\d+)`; without a match ids[2] panics *)
Definition online_rx : rx := RSeq (ROpt (RSeq (RGrp "bank" (rplus d_)) (rplus s_))) (RGrp "acct" (rplus d_)).
Fixpoint slot (key : bytes) (l : list (bytes * bytes)) : bytes :=
  match l with [] => [] | (k, v) :: r => if eqb_bytes k key then v else slot key r end.
Definition online_ids (a : gaccount) : res (bytes * bytes) :=
  match slot (B "online_id") (ga_slots a) with
  | [] => Ok ([], [])
  | v => match rsearch online_rx v with Some (_, cs) => Ok (cap "bank" cs, cap "acct" cs) | None => Panic end
  end.
(** coin.Account, as gc2coin writes it *)
Record caccount := mkCAccount { ca_guid : bytes; ca_name : bytes; ca_commodity : commodity; ca_desc : bytes;
                                ca_bank : bytes; ca_acct : bytes }.
(** account.go:85-105: one account; coin.DefaultCommodityId is "CAD" (coin.go:31) *)
Definition default_id : bytes := B "CAD".
Definition account_from (cs : list gcommodity) (l : list gaccount) (a : gaccount) : res caccount :=
  if eqb_bytes (ga_guid a) [] then Panic
  else match find_commodity_at cs (if eqb_bytes (ga_commodity a) [] then default_id else ga_commodity a) with
       | None => Panic
       | Some c =>
           do ids <- online_ids a;
           do n <- full_name (S (List.length l)) l a;
           Ok (mkCAccount (ga_guid a) n c (ga_desc a) (fst ids) (snd ids))
       end.
(** account.go:84-123 for all accounts of the book, in the order of the file. Every parent must be known, also that of an
    account of type ROOT. Simplification: guids are different; Children (used by reports only) are left out. *)
Definition resolve_gaccounts (cs : list gcommodity) (l : list gaccount) : res (list caccount) :=
  if forallb (fun a => eqb_bytes (ga_parent a) [] || match by_guid l (ga_parent a) with Some _ => true | None => false end) l
  then res_map (account_from cs l) l else Panic.
(** coin.AccountsByName after account.go:115-118; [order] is the order of the iteration over AccountsByGuid: the last account
    of a name stays *)
Definition account_named (order : list caccount) (n : bytes) : option caccount :=
  find (fun a => eqb_bytes (ca_name a) n) (rev order).
(** AccountsByGuid *)
Definition account_of (l : list caccount) (g : bytes) : option caccount := find (fun a => eqb_bytes (ca_guid a) g) l.

(** ** Transactions: gnucash/split.go:41-52, transaction.go:63-87 *)
(** coin.Transaction; the postings are pointers into the store of M_Ledger, in which accounts are known by their guids
    and dates are instants *)
Record gtx := mkGtx { g_time : stamp; g_code : bytes; g_desc : bytes; g_notes : list bytes; g_posts : list nat }.
(** strings.SplitN(s, " - ", 2) *)
Fixpoint split_dash (s : bytes) : bytes * option bytes :=
  match s with
  | [] => ([], None)
  | c :: r => if has_prefix (B " - ") s then ([], Some (skipn 3 s)) else let '(a, b) := split_dash r in (c :: a, b)
  end.
Definition opt_note (n : bytes) : list bytes := match n with [] => [] | _ => [n] end.
Fixpoint resolve_splits (acs : list caccount) (t : Z) (L : ledger) (ss : list gsplit) : res (ledger * list nat) :=
  match ss with
  | [] => Ok (L, [])
  | s :: r =>
      match account_of acs (gs_account s) with
      | None => Panic
      | Some a =>
          do q <- gnc_amount (gs_quantity s) (ca_commodity a);
          let p := nxt L in
          let L := mkLedger (updn (heap L) p (mkRP t [] (ca_guid a) (Some q) None false (opt_note (gs_memo s)))) (S p)
                            (updb (reg L) (ca_guid a) (reg L (ca_guid a) ++ [p])) (bal L) in
          do Lr <- resolve_splits acs t L r;
          Ok (fst Lr, p :: snd Lr)
      end
  end.
Definition resolve_trans (acs : list caccount) (L : ledger) (t : gtrans) : res (ledger * gtx) :=
  let ds := split_dash (gt_desc t) in
  do s <- parse_stamp (gt_posted t);
  do Lp <- resolve_splits acs (instant s) L (gt_splits t);
  Ok (fst Lp, mkGtx s (gt_num t) (fst ds) (match snd ds with Some n => opt_note n | None => [] end) (snd Lp)).
Fixpoint resolve_all_trans (acs : list caccount) (L : ledger) (ts : list gtrans) : res (ledger * list gtx) :=
  match ts with
  | [] => Ok (L, [])
  | t :: r => do Lx <- resolve_trans acs L t; do Lr <- resolve_all_trans acs (fst Lx) r; Ok (fst Lr, snd Lx :: snd Lr)
  end.
(** transaction.go:77-82 the loop over AccountsByGuid, in any order; warnings do not occur, no balance is set before *)
Fixpoint finish_guids (comm : bytes -> commodity) (conv : conversion) (L : ledger) (gs : list bytes) : res ledger :=
  match gs with
  | [] => Ok L
  | g :: r =>
      let L := set_reg L g (ssort (fun p q => dates L p <? dates L q) (reg L g)) in
      do Lw <- check_postings comm conv L g;
      finish_guids comm conv (fst Lw) r
  end.
Definition no_ledger : ledger := mkLedger (fun _ => mkRP 0 [] [] None None false []) 0 (fun _ => []) (fun _ => None).
(** Account.Commodity by guid *)
Definition commodity_of (acs : list caccount) (g : bytes) : commodity :=
  match account_of acs g with Some a => ca_commodity a | None => mkCommodity 0 [] 0 end.
Definition resolve_transactions_of (acs : list caccount) (conv : conversion) (order : list bytes) (ts : list gtrans)
    : res (ledger * list gtx) :=
  do Lx <- resolve_all_trans acs no_ledger ts;
  do L <- finish_guids (commodity_of acs) conv (fst Lx) order;
  Ok (L, ssort (fun x y => instant (g_time x) <? instant (g_time y)) (snd Lx)).

(** gnucash.go:37-42 Resolve. [conv] is the conversion by the prices of the book, [order] the order of the iterations over
    AccountsByGuid in resolveTransactions. *)
Record converted := mkConverted { cv_prices : list cprice; cv_accounts : list caccount; cv_ledger : ledger; cv_trans : list gtx }.
Definition resolve_book (conv : conversion) (order : list bytes) (b : book) : res converted :=
  do ps <- resolve_prices (bk_commodities b) (bk_prices b);
  do acs <- resolve_gaccounts (bk_commodities b) (bk_accounts b);
  do Lx <- resolve_transactions_of acs conv order (bk_trans b);
  Ok (mkConverted ps acs (fst Lx) (snd Lx)).

(** ** cmd/gc2coin/main.go *)
(** what Write prints of commodities, prices, accounts and transactions; times print as the day of their own offset *)
Definition commodity_item (cs : list gcommodity) (i : nat) : pcommodity :=
  let c := nth i cs (mkGCommodity [] [] [] 0) in
  mkPCommodity (gc_id c) (gc_name c) (c_dec (commodity_at cs i)) false [] 0.
Definition price_item (p : cprice) : pprice :=
  mkPPrice (st_day (cp_time p)) (c_id (cp_commodity p)) (c_id (a_com (cp_value p))) (cp_value p) 0.
Definition account_item (a : caccount) : paccount :=
  mkPAccount (ca_name a) (ca_desc a) (c_id (ca_commodity a)) None (ca_bank a) (ca_acct a) [] 0.
Definition name_of (acs : list caccount) (g : bytes) : bytes := match account_of acs g with Some a => ca_name a | None => [] end.
Definition trans_item (acs : list caccount) (L : ledger) (x : gtx) : transaction :=
  mkTransaction (st_day (g_time x)) (g_code x) (g_desc x) (g_notes x)
    (map (fun p => mkPosting (name_of acs (rp_acc (heap L p))) (rp_qty (heap L p)) None (rp_notes (heap L p))) (g_posts x)) 0.

(** main.go:62-76: coin.CommoditiesDo goes by id; commodities named "template" are left out *)
Definition commodity_items (cs : list gcommodity) : list item :=
  flat_map (fun id => match find_from 0 cs id with
                      | Some i => if eqb_bytes (gc_name (nth i cs (mkGCommodity [] [] [] 0))) (B "template") then []
                                  else [ICommodity (commodity_item cs i)]
                      | None => []
                      end)
           (sort_strings (nodup (list_eq_dec ascii_dec) (map gc_id cs))).
(** main.go:99-111: coin.AccountsDo goes by full name *)
Definition account_items (order : list caccount) : list item :=
  flat_map (fun n => match account_named order n with Some a => [IAccount (account_item a)] | None => [] end)
           (sort_strings (nodup (list_eq_dec ascii_dec) (map ca_name order))).

(** main.go:37-47 next: os.Create empties the file *)
Definition create_file (F : fs) (f : bytes) : fs := fs_set F f (Some []).
Definition append_file (F : fs) (f t : bytes) : fs := fs_set F f (match F f with Some x => Some (x ++ t) | None => None end).
(** main.go:87-97 and 120-134: [year] is the variable of main (the year of the first entry is kept in another variable of
    the same name), [cur] the open file; entries come with their year and text *)
Fixpoint yearly_loop (ext : bytes) (F : fs) (year : Z) (cur : bytes) (l : list (Z * bytes)) : fs * Z :=
  match l with
  | [] => (F, year)
  | (y, t) :: r =>
      if y =? year then yearly_loop ext (append_file F cur t) year cur r
      else let cur := print_int y ++ ext in yearly_loop ext (append_file (create_file F cur) cur t) y cur r
  end.
(** main.go:78-97, 113-134 with -y: coin.Prices[0] and coin.Transactions[0] panic if there are none *)
Definition write_yearly (ext : bytes) (F : fs) (year : Z) (l : list (Z * bytes)) : res (fs * Z) :=
  match l with
  | [] => Panic
  | (y, _) :: _ => let cur := print_int y ++ ext in Ok (yearly_loop ext (create_file F cur) year cur l)
  end.
Definition write_single (f : bytes) (F : fs) (l : list (Z * bytes)) : fs :=
  append_file (create_file F f) f (concat (map snd l)).

Definition item_text (acc_dec : bytes -> nat) (i : item) : res bytes :=
  do t <- write_item acc_dec i; Ok (t ++ concat (map put_line (item_sep i))).
(** main.go:49-136 with COINDB set, starting with the files [F]. File names are relative to COINDB. [by_name] is the order
    of the iteration over AccountsByGuid in resolveAccounts. Simplification: no write errors. *)
Definition gc2coin (yearly : bool) (acc_dec : bytes -> nat) (by_name : list caccount -> list caccount) (cs : list gcommodity)
    (F : fs) (c : converted) : res fs :=
  do ct <- res_map (item_text acc_dec) (commodity_items cs);
  let F := append_file (create_file F (B "commodities.coin")) (B "commodities.coin") (concat ct) in
  do pt <- res_map (fun p => do t <- item_text acc_dec (IPrice (price_item p)); Ok (year_of (st_day (cp_time p)), t)) (cv_prices c);
  do Fy <- (if yearly then write_yearly (B ".prices") F 0 pt else Ok (write_single (B "prices.coin") F pt, 0));
  do at_ <- res_map (item_text acc_dec) (account_items (by_name (cv_accounts c)));
  let F := append_file (create_file (fst Fy) (B "accounts.coin")) (B "accounts.coin") (concat at_) in
  do tt_ <- res_map (fun x => do t <- item_text acc_dec (ITransaction (trans_item (cv_accounts c) (cv_ledger c) x));
                              Ok (year_of (st_day (g_time x)), t)) (cv_trans c);
  do Fy <- (if yearly then write_yearly (B ".coin") F (snd Fy) tt_ else Ok (write_single (B "transactions.coin") F tt_, 0));
  Ok (fst Fy).
End Gnucash.
