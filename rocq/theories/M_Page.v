(** Model of the export of the books by cmd/coin2html (Go: MarshalJSON of commodities, accounts, transactions and postings) and of the
    page loading them (cmd/coin2html/js/src/account.ts, commodity.ts). Exceptions thrown are [Fail], TypeErrors are [Panic]. *)
From Verif Require Import Base M_Amount M_Date M_Parser M_Writer M_Names M_Tags M_Ledger M_Json M_Web M_Csv.
Local Open Scope Z_scope.

(** ** Export *)
(** an entry added to the map only if it is not empty *)
Definition entry (k : bytes) (s : bytes) : list (bytes * json) := match s with [] => [] | _ => [(k, JStr s)] end.
(** a []string or a nil one *)
Definition strings_json (l : list bytes) : json := JArr (map JStr l).
(** Tags is a map[string]string: keys in order *)
Definition tags_json (t : tags) : json := JObj (map (fun k => (k, JStr (match tag_get k t with Some v => v | None => [] end))) (tag_keys t)).
(** commodity.go:238-251; encoding/json writes the keys of a map in order. [code], [name] and [location] of the commodity are arguments. *)
Definition commodity_json (code name location : bytes) (c : commodity) : json :=
  JObj (entry (B "code") code ++ [(B "decimals", JNum (Z.of_nat (c_dec c))); (B "id", JStr (c_id c))] ++
        entry (B "location") location ++ [(B "name", JStr name)]).
(** what an account has besides its name and its place in the tree *)
Record account_info := mkInfo { in_com : commodity; in_code : bytes; in_closed : option Z; in_location : bytes }.
(** account.go:322-342 *)
Definition account_json (T : tree) (info : bytes -> account_info) (a : bytes) : json :=
  let i := info a in
  JObj ((match in_closed i with Some d => [(B "closed", JStr (format_date d))] | None => [] end) ++
        entry (B "code") (in_code i) ++
        [(B "commodity", JStr (c_id (in_com i))); (B "fullName", JStr a)] ++
        entry (B "location") (in_location i) ++
        [(B "name", JStr (snd (parent_and_name a)))] ++
        match t_parent T a with Some p => [(B "parent", JStr p)] | None => [] end).
(** posting.go:75-92; a posting without quantity would be exported as null. Tags is never nil (transaction.go:191-193). *)
Definition posting_json (v : rposting) : res json :=
  do q <- match rp_qty v with Some q => do s <- marshal_amount q; Ok (JStr s) | None => Ok JNull end;
  do b <- match rp_bal v with
          | Some b => do s <- marshal_amount b; Ok [(B "balance", JStr s); (B "balance_asserted", JBool (rp_asserted v))]
          | None => Ok [] end;
  Ok (JObj ([(B "account", JStr (rp_acc v))] ++ b ++
            (match rp_notes v with [] => [] | n => [(B "notes", strings_json n)] end) ++
            [(B "quantity", q); (B "tags", tags_json (parse_tags (rp_notes v)))])).
Fixpoint all_json {A} (f : A -> res json) (l : list A) : res (list json) :=
  match l with [] => Ok [] | x :: r => do v <- f x; do vs <- all_json f r; Ok (v :: vs) end.
(** a slice that was only appended to: nil when empty *)
Definition slice_json (l : list json) : json := match l with [] => JNull | _ => JArr l end.
(** transaction.go:303-322; [location] is "file:line" *)
Definition tx_json (L : ledger) (location : rtx -> bytes) (x : rtx) : res json :=
  do ps <- all_json (fun p => posting_json (heap L p)) (x_posts x);
  Ok (JObj (entry (B "code") (x_code x) ++ [(B "description", JStr (x_desc x))] ++ entry (B "location") (location x) ++
            (match x_notes x with [] => [] | n => [(B "notes", strings_json n)] end) ++
            [(B "posted", JStr (format_date (x_posted x))); (B "postings", slice_json ps)] ++
            (match parse_tags (x_notes x) with [] => [] | t => [(B "tags", tags_json t)] end))).
(** cmd/coin2html/main.go:28-52: the four data elements but the prices. The maps Commodities and AccountsByName are written with their keys
    in order; [coms] are the commodities, [accounts] the names of the accounts. *)
Record export := mkExport { ex_commodities : bytes; ex_accounts : bytes; ex_transactions : bytes }.
Definition data_text (v : json) : bytes := [nline] ++ encode 0 v ++ [nline].
Fixpoint com_by_id (coms : list commodity) (id : bytes) : option commodity :=
  match coms with [] => None | c :: r => if eqb_bytes (c_id c) id then Some c else com_by_id r id end.
Definition commodities_json (about : commodity -> bytes * bytes * bytes) (coms : list commodity) : json :=
  JObj (map (fun id => (id, match com_by_id coms id with
                            | Some c => let '(code, name, location) := about c in commodity_json code name location c
                            | None => JNull end)) (sort_strings (map c_id coms))).
Definition accounts_json (T : tree) (info : bytes -> account_info) (accounts : list bytes) : json :=
  JObj (map (fun a => (a, account_json T info a)) (sort_strings accounts)).
Definition export_page (about : commodity -> bytes * bytes * bytes) (coms : list commodity) (T : tree) (info : bytes -> account_info)
    (accounts : list bytes) (L : ledger) (location : rtx -> bytes) (xs : list rtx) : res export :=
  do txs <- all_json (tx_json L location) xs;
  Ok (mkExport (data_text (commodities_json about coms)) (data_text (accounts_json T info accounts)) (data_text (slice_json txs))).

(** ** The page *)
Record pacct := mkPacct { pa_name : bytes; pa_full : bytes; pa_com : commodity; pa_parent : option bytes; pa_closed : option Z; pa_location : option bytes }.
(** [pp_tx] is the place of the transaction in the order of loading, it stands for the transaction object *)
Record pposting := mkPpost { pp_tx : nat; pp_date : Z; pp_account : bytes; pp_qty : amount; pp_bal : amount; pp_asserted : bool;
                             pp_notes : option (list bytes); pp_tags : option (list (bytes * bytes)) }.
Record ptx := mkPtx { pt_posted : Z; pt_desc : bytes; pt_notes : option (list bytes); pt_code : option bytes; pt_location : option bytes;
                      pt_postings : list pposting }.
(** Accounts (in the order of their entry), Roots, the children and postings of the account objects by full name, the transactions *)
Record page := mkPage { pg_coms : list commodity; pg_accounts : list pacct; pg_roots : list bytes; pg_children : bytes -> list bytes;
                        pg_register : bytes -> list pposting; pg_txs : list ptx }.

Fixpoint jget (k : bytes) (l : list (bytes * json)) : option json :=
  match l with [] => None | (k', v) :: r => if eqb_bytes k' k then Some v else jget k r end.
(** an object's field; a field of null or undefined is a TypeError. Simplification: the fields of texts, numbers and arrays are never asked for. *)
Definition field (k : bytes) (v : json) : res (option json) := match v with JObj l => Ok (jget k l) | _ => Panic end.
(** Object.values; of null it is a TypeError. Simplification: integer-like keys, which JavaScript moves to the front, do not occur. *)
Definition values (v : json) : res (list json) := match v with JObj l => Ok (map snd l) | JArr l => Ok l | _ => Panic end.
(** a field the program passes on as a text; [None] is undefined. Simplification: values of another type do not occur. *)
Definition text_field (k : bytes) (v : json) : res (option bytes) :=
  do f <- field k v; match f with Some (JStr s) => Ok (Some s) | None => Ok None | _ => Panic end.
Definition need_text (k : bytes) (v : json) : res bytes :=
  do f <- text_field k v; match f with Some s => Ok s | None => Panic end.
Definition texts (v : json) : res (list bytes) :=
  match v with JArr l => res_map (fun x => match x with JStr s => Ok s | _ => Panic end) l | _ => Panic end.
Definition texts_field (k : bytes) (v : json) : res (option (list bytes)) :=
  do f <- field k v; match f with None => Ok None | Some j => do t <- texts j; Ok (Some t) end.
Definition tags_field (k : bytes) (v : json) : res (option (list (bytes * bytes))) :=
  do f <- field k v;
  match f with
  | None => Ok None
  | Some (JObj l) => do t <- res_map (fun kv => match snd kv with JStr s => Ok (fst kv, s) | _ => Panic end) l; Ok (Some t)
  | _ => Panic
  end.
(** new Date("yyyy/mm/dd"): local midnight, numbered by its day. Simplification: other texts and years below 100 are read differently. *)
Definition js_date (s : bytes) : res Z := parse_ymd s.

(** js/src/commodity.ts:316-327 *)
Definition load_commodity (v : json) : res commodity :=
  do id <- need_text (B "id") v;
  do d <- field (B "decimals") v;
  match d with Some (JNum n) => Ok (mkCommodity 0 id (Z.to_nat n)) | _ => Panic end.
Definition load_commodities (src : bytes) : res (list commodity) :=
  match json_parse src with None => Fail | Some v => do l <- values v; res_map load_commodity l end.
(** js/src/commodity.ts:88-92 Commodity.find; a later commodity of the same id would replace the first *)
Definition page_find (coms : list commodity) (id : bytes) : option commodity := com_by_id (rev coms) id.

Definition find_account (l : list pacct) (full : bytes) : option pacct := List.find (fun p => eqb_bytes (pa_full p) full) l.
(** js/src/account.ts:216-235 loadAccounts, the body of the loop *)
Definition load_account (pg : page) (v : json) : res page :=
  do name <- text_field (B "name") v;
  match name with
  | None => Panic
  | Some name =>
      if eqb_bytes name (B "Root") then Ok pg else
      do par <- text_field (B "parent") v;
      do full <- need_text (B "fullName") v;
      do cid <- need_text (B "commodity") v;
      do closed <- text_field (B "closed") v;
      do location <- text_field (B "location") v;
      match page_find (pg_coms pg) cid with
      | None => Fail
      | Some c =>
          do cl <- match closed with Some s => do d <- js_date s; Ok (Some d) | None => Ok None end;
          let parent := match par with Some p => match find_account (pg_accounts pg) p with Some pa => Some (pa_full pa) | None => None end | None => None end in
          let acc := mkPacct name full c parent cl location in
          Ok (mkPage (pg_coms pg) (pg_accounts pg ++ [acc])
                (match parent with None => pg_roots pg ++ [full] | Some _ => pg_roots pg end)
                (match parent with None => pg_children pg | Some p => updb (pg_children pg) p (pg_children pg p ++ [full]) end)
                (pg_register pg) (pg_txs pg))
      end
  end.
Fixpoint load_each (f : page -> json -> res page) (pg : page) (l : list json) : res page :=
  match l with [] => Ok pg | v :: r => do pg <- f pg v; load_each f pg r end.
Definition load_accounts (pg : page) (src : bytes) : res page :=
  match json_parse src with None => Fail | Some v => do l <- values v; load_each load_account pg l end.
(** js/src/account.ts:253-270: one posting; [i] is the transaction it belongs to. Amount.parse(undefined) is a TypeError. *)
Definition load_posting (pg : page) (i : nat) (date : Z) (v : json) : res (page * pposting) :=
  do a <- need_text (B "account") v;
  match find_account (pg_accounts pg) a with
  | None => Fail
  | Some acc =>
      do q <- need_text (B "quantity") v;
      do q <- web_parse (page_find (pg_coms pg)) q;
      do b <- need_text (B "balance") v;
      do b <- web_parse (page_find (pg_coms pg)) b;
      do asserted <- field (B "balance_asserted") v;
      do notes <- texts_field (B "notes") v;
      do tags <- tags_field (B "tags") v;
      let p := mkPpost i date (pa_full acc) q b (match asserted with Some (JBool b) => b | _ => false end) notes tags in
      Ok (mkPage (pg_coms pg) (pg_accounts pg) (pg_roots pg) (pg_children pg)
            (updb (pg_register pg) (pa_full acc) (pg_register pg (pa_full acc) ++ [p])) (pg_txs pg), p)
  end.
Fixpoint load_postings (pg : page) (i : nat) (date : Z) (l : list json) : res (page * list pposting) :=
  match l with
  | [] => Ok (pg, [])
  | v :: r => do x <- load_posting pg i date v; do y <- load_postings (fst x) i date r; Ok (fst y, snd x :: snd y)
  end.
(** js/src/account.ts:237-272 loadTransactions, the body of the loop; iterating over null is a TypeError. The tags of the transaction are not read. *)
Definition load_tx (pg : page) (v : json) : res page :=
  do posted <- need_text (B "posted") v;
  do d <- js_date posted;
  do desc <- need_text (B "description") v;
  do notes <- texts_field (B "notes") v;
  do code <- text_field (B "code") v;
  do location <- text_field (B "location") v;
  do ps <- field (B "postings") v;
  match ps with
  | Some (JArr l) =>
      do r <- load_postings pg (List.length (pg_txs pg)) d l;
      let pg := fst r in
      Ok (mkPage (pg_coms pg) (pg_accounts pg) (pg_roots pg) (pg_children pg) (pg_register pg)
            (pg_txs pg ++ [mkPtx d desc notes code location (snd r)]))
  | _ => Panic
  end.
Definition load_txs (pg : page) (src : bytes) : res page :=
  match json_parse src with None => Fail | Some v => do l <- values v; load_each load_tx pg l end.
(** js/src/ui.ts:25-30 initializeUI, the loading *)
Definition load_page (e : export) : res page :=
  do coms <- load_commodities (ex_commodities e);
  do pg <- load_accounts (mkPage coms [] [] (fun _ => []) (fun _ => []) []) (ex_accounts e);
  load_txs pg (ex_transactions e).
