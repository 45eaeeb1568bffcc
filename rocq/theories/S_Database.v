(** What loading a database means, said over the entries met while reading. *)
From Verif Require Import Base M_Amount M_Date M_Parser M_Database.

(** an entry: the file it stands in, what was read, and the default commodity after it *)
Record event := mkEvent { ev_file : bytes; ev_item : item; ev_default : bytes }.
(** commodities are different objects even when their definitions are equal: number them as they are met *)
Fixpoint known_from (n : nat) (found : option commodity) (es : list event) (id : bytes) : option commodity :=
  match es with
  | [] => found
  | v :: r =>
      match ev_item v with
      | ICommodity c => known_from (S n) (if eqb_bytes id (pc_id c) then Some (mkCommodity n (pc_id c) (pc_dec c)) else found) r id
      | _ => known_from n found r id
      end
  end.
(** the commodity an id means after some entries: the last definition *)
Definition known (es : list event) (id : bytes) : option commodity := known_from 0 None es id.
Definition default_after (es : list event) : bytes := ev_default (last es (mkEvent [] (IInclude [] 0) (B "CAD"))).
Definition env_after (w : world) (es : list event) : env := mkEnv (known es) (default_after es) (w_today w).
Definition is_include (i : item) : bool := match i with IInclude _ _ => true | _ => false end.

(** the files that an include line names: those matching the path after replacing environment variables; a path that starts with a
    slash is taken from the current directory, one that starts with $ as it is, any other from the directory of the file *)
Definition included (w : world) (file path : bytes) (files : list bytes) : Prop :=
  w_glob w (w_env w (match path with
                     | c :: _ => if eqc c slash then B "." ++ path else if eqc c "$"%char then path else join_path (dir file) path
                     | [] => join_path (dir file) path
                     end)) = Ok files.

(** the entries of a file, with the entries of included files in the place of the include line; [before]
    are the entries met so far *)
Inductive file_entries (w : world) : list event -> bytes -> list event -> Prop :=
| fe_file before fn text es : w_file w fn = Some text -> text_entries w before fn (new_parser text) es -> file_entries w before fn es
with text_entries (w : world) : list event -> bytes -> parser -> list event -> Prop :=
| te_end before fn p : next (env_after w before) p = Ok None -> text_entries w before fn p []
| te_entry before fn p i dflt p' es : next (env_after w before) p = Ok (Some (i, dflt, p')) -> is_include i = false ->
    text_entries w (before ++ [mkEvent fn i dflt]) fn p' es -> text_entries w before fn p (mkEvent fn i dflt :: es)
| te_include before fn p path n dflt p' files es1 es2 : next (env_after w before) p = Ok (Some (IInclude path n, dflt, p')) ->
    included w fn path files -> ~ In fn files ->
    all_entries w before files es1 -> text_entries w (before ++ es1) fn p' es2 -> text_entries w before fn p (es1 ++ es2)
with all_entries (w : world) : list event -> list bytes -> list event -> Prop :=
| ae_nil before : all_entries w before [] []
| ae_cons before f files es1 es2 : file_entries w before f es1 -> all_entries w (before ++ es1) files es2 -> all_entries w before (f :: files) (es1 ++ es2).
Scheme file_ind2 := Induction for file_entries Sort Prop
  with text_ind2 := Induction for text_entries Sort Prop
  with all_ind2 := Induction for all_entries Sort Prop.
Combined Scheme entries_ind from file_ind2, text_ind2, all_ind2.

Definition named (v : event) : Prop := forall a, ev_item v = IAccount a -> pa_name a <> [].
Definition ev_txs (es : list event) : list (bytes * transaction) :=
  flat_map (fun v => match ev_item v with ITransaction t => [(ev_file v, t)] | _ => [] end) es.
Definition ev_tests (es : list event) : list (bytes * ptest) :=
  flat_map (fun v => match ev_item v with ITest t => [(ev_file v, t)] | _ => [] end) es.
Definition ev_prices (es : list event) : list pprice := flat_map (fun v => match ev_item v with IPrice p => [p] | _ => [] end) es.
Definition ev_accounts (es : list event) : list paccount := flat_map (fun v => match ev_item v with IAccount a => [a] | _ => [] end) es.
Definition ev_comms (es : list event) : list pcommodity := flat_map (fun v => match ev_item v with ICommodity c => [c] | _ => [] end) es.
(** the last one satisfying a condition *)
Definition last_such {A} (f : A -> bool) (l : list A) : option A := List.find f (rev l).

(** a database holds the entries: transactions, prices and tests in the order met; accounts by name and
    commodities by id, the last definition of each *)
Definition holds (d : db) (es : list event) : Prop :=
  d_txs d = ev_txs es /\ d_tests d = ev_tests es /\ d_prices d = ev_prices es /\ d_default d = default_after es /\
  (forall n, lookup n (d_accounts d) = last_such (fun a => eqb_bytes n (pa_name a)) (ev_accounts es)) /\
  (forall id, option_map snd (lookup id (d_comms d)) = last_such (fun c => eqb_bytes id (pc_id c)) (ev_comms es)) /\
  (forall id, find_comm d id = known es id) /\
  NoDup (map fst (d_accounts d)) /\ NoDup (map fst (d_comms d)) /\ d_next d = List.length (ev_comms es).

(** ** the include graph; entries may be read with any known commodities *)
Inductive has_include : parser -> bytes -> Prop :=
| hi_here e p path n dflt p' : next e p = Ok (Some (IInclude path n, dflt, p')) -> has_include p path
| hi_later e p i dflt p' path : next e p = Ok (Some (i, dflt, p')) -> has_include p' path -> has_include p path.
Definition includes (w : world) (f g : bytes) : Prop :=
  exists text path files, w_file w f = Some text /\ has_include (new_parser text) path /\ included w f path files /\ In g files.
(** [chain w f l]: f includes the first of l, which includes the next, ... *)
Fixpoint chain (w : world) (f : bytes) (l : list bytes) : Prop :=
  match l with [] => True | g :: r => includes w f g /\ chain w g r end.
(** files reached from [f], and cycles among them *)
Definition cycle_from (w : world) (f : bytes) : Prop := exists l g r, chain w f (l ++ g :: r ++ [g]).

(** ** which files LoadAll reads, in order *)
Definition database_files (w : world) (DB : bytes) : list bytes :=
  let name s := in_dir DB (B s) in
  let exists_ f := match w_file w f with Some _ => true | None => false end in
  [name "commodities.coin"%string] ++
  (if exists_ (name "prices.coin"%string) then [name "prices.coin"%string] else glob_files w (name "*.prices"%string)) ++
  [name "accounts.coin"%string] ++
  (if exists_ (name "transactions.coin"%string) then [name "transactions.coin"%string]
   else filter (fun f => negb (eqb_bytes f (name "commodities.coin"%string)) && negb (eqb_bytes f (name "accounts.coin"%string))) (glob_files w (name "*.coin"%string))).
(** a path component that is a proper name *)
Definition plain_part (p : bytes) : Prop := p <> [] /\ p <> B "." /\ p <> B ".." /\ ~ In slash p.
