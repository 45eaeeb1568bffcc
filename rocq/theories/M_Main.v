(** Model of the program coin: the choice of the command, and the command lines of accounts, commodities, stats and tags. *)
From Verif Require Import Base M_Amount M_Date M_Convert M_Names M_Tags M_Parser M_Ledger M_Report M_Output M_Listing M_Database M_Coin M_Lists M_Flags M_RegLine M_TestReport.

(** cmd/coin: the init functions of accounts.go:11, balance.go:12, commodities.go:18, format.go:13, modify.go:15, register.go:15, stats.go:11,
    tags.go:13, test.go:18, version.go:10 *)
Inductive cmd := Accounts | Balance | Commodities | Format | Modify | Register | Stats | Tags | Test | Version.
Definition all_commands : list cmd := [Accounts; Balance; Commodities; Format; Modify; Register; Stats; Tags; Test; Version].
Definition names_of (c : cmd) : list bytes :=
  match c with
  | Accounts => [B "accounts"; B "acc"; B "a"] | Balance => [B "balance"; B "bal"; B "b"] | Commodities => [B "commodities"; B "com"; B "c"]
  | Format => [B "format"; B "fmt"; B "f"] | Modify => [B "modify"; B "mod"; B "m"] | Register => [B "register"; B "reg"; B "r"]
  | Stats => [B "stats"; B "s"] | Tags => [B "tags"] | Test => [B "test"; B "t"] | Version => [B "version"; B "ver"; B "v"]
  end.
(** cmd/coin/main.go:30-36: aliases, the last command with the name *)
Definition alias (n : bytes) : option cmd := List.find (fun c => existsb (eqb_bytes n) (names_of c)) (rev all_commands).
(** cmd/coin/main.go:56-77: the command and its arguments. Fail: the usage of all commands is printed to stderr (after "Unknown
    command", unless the argument is -h) and the program ends *)
Definition dispatch (args : list bytes) : res (cmd * list bytes) :=
  match alias (match args with [] => B "balance" | a :: _ => a end) with Some c => Ok (c, tl args) | None => Fail end.

Definition a_bool (v : bytes) : bool := is_some (parse_bool v).
(** cmd/coin/stats.go:29-33 *)
Definition stats_flags (td : today) : list flag_def :=
  [mkFlag (B "d") true a_bool; mkFlag (B "u") true a_bool; mkFlag (B "c") true a_bool; mkFlag (B "b") false (is_date td); mkFlag (B "e") false (is_date td)].
(** cmd/coin/stats.go:37-97 *)
Definition stats_line (td : today) (comm : bytes -> commodity) (loc : rtx -> bytes) (b : book) (args : list bytes) : res bytes :=
  do p <- parse_flags (stats_flags td) args;
  let ss := fst p in
  coin_stats comm loc (bool_setting (B "d") ss) (bool_setting (B "u") ss) (bool_setting (B "c") ss) (date_setting td (B "b") ss) (date_setting td (B "e") ss) b.
(** cmd/coin/tags.go:32-33 *)
Definition tags_flags : list flag_def := [mkFlag (B "v") true a_bool; mkFlag (B "a") true a_bool].
(** cmd/coin/tags.go:37-75. Simplification: a pattern that is not a regular expression, which panics, is left to [rexm] *)
Definition tags_line (rexm : bytes -> bytes -> bool) (o_tx o_post : nat -> tags -> tags) (o_keys : list bytes -> list bytes) (b : book) (args : list bytes) : res bytes :=
  do p <- parse_flags tags_flags args;
  coin_tags (match snd p with a :: _ => Some (rexm (B "(?i)" ++ a)) | [] => None end) (bool_setting (B "v") (fst p)) (bool_setting (B "a") (fst p)) o_tx o_post o_keys b.
(** cmd/coin/accounts.go:26 *)
Definition accounts_flags : list flag_def := [mkFlag (B "c") true a_bool].
(** cmd/coin/accounts.go:31-59; the flags are read before the files. Simplification as for tags *)
Definition accounts_line (limit : nat) (w : world) (DB : bytes) (compile : bytes -> bytes -> bool) (fuel : nat) (comm : bytes -> commodity) (args : list bytes) (out : bytes) : Prop :=
  exists p, parse_flags accounts_flags args = Ok p /\
    coin_accounts limit w DB fuel comm (bool_setting (B "c") (fst p)) (match snd p with a :: _ => Some (compile a) | [] => None end) out.
(** cmd/coin/commodities.go:35-37 *)
Definition commodities_flags : list flag_def := [mkFlag (B "q") true a_bool; mkFlag (B "p") true a_bool; mkFlag (B "f") true a_bool].
(** cmd/coin/commodities.go:41-47, 99-110. Only the plain list: not quotes (-q), price statistics (-p) and the prices of one commodity (C96) *)
Definition commodities_line (limit : nat) (w : world) (DB : bytes) (args : list bytes) (out : bytes) : Prop :=
  exists given, parse_flags commodities_flags args = Ok (given, []) /\ bool_setting (B "q") given = false /\ bool_setting (B "p") given = false /\
    coin_commodities limit w DB out.
(** cmd/coin/version.go:32-36; [built] is coin.Built, ... set by the linker *)
Definition version_text (built branch commit go : bytes) : bytes :=
  B "built on " ++ built ++ [nl] ++ B "built from " ++ branch ++ B "@" ++ commit ++ [nl] ++ B "built with " ++ go ++ [nl].

(** the commands that print from a loaded database, cmd/coin/main.go:56-81. The others are Fail here: see accounts_line, commodities_line,
    version_text, M_Commands (format, modify) and M_TestReport (test) *)
Definition coin_line (td : today) (fuel : nat) (compile rexm : bytes -> bytes -> bool) (o : map_order) (comm : bytes -> commodity) (b : book) (tx_of : nat -> rtx)
    (loc : rtx -> bytes) (order : list (option bytes)) (o_tx o_post : nat -> tags -> tags) (o_keys : list bytes -> list bytes)
    (args : list bytes) : res bytes :=
  do p <- dispatch args;
  match fst p with
  | Balance => balance_line td fuel compile rexm o comm b tx_of (snd p)
  | Register => register_line td fuel compile rexm o comm b tx_of loc order (snd p)
  | Stats => stats_line td comm loc b (snd p)
  | Tags => tags_line rexm o_tx o_post o_keys b (snd p)
  | _ => Fail
  end.
(** cmd/coin/test.go:81-89 with main.go:30-36 and the newCommand methods: what a test's command prints. A command made again gets its first name
    only, so the aliases stay; its options are fresh, and executing it changes no loaded data (amounts are copied, cmd/coin/totals.go:49-64,139-146).
    Simplifications: [rest] is left open for commands other than balance and register; [order] as in register_execute *)
Definition test_commands (td : today) (fuel : nat) (compile rexm : bytes -> bytes -> bool) (o : map_order) (comm : bytes -> commodity) (b : book) (tx_of : nat -> rtx)
    (loc : rtx -> bytes) (order : list (option bytes)) (rest : cmd -> list bytes -> bytes) : commands := fun n =>
  match alias n with
  | Some Balance => Some (test_balance td fuel compile rexm o comm b tx_of)
  | Some Register => Some (test_register td fuel compile rexm o comm b tx_of loc order)
  | Some c => Some (rest c)
  | None => None
  end.
