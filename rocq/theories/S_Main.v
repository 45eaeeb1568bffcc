(** The commands of coin and their command lines. *)
From Verif Require Import Base M_Date M_Main S_Flags S_RegLine.

(** every command has a full name, and others *)
Definition called (c : cmd) (n : bytes) : Prop :=
  In n (map B match c with
              | Accounts => ["accounts"; "acc"; "a"] | Balance => ["balance"; "bal"; "b"] | Commodities => ["commodities"; "com"; "c"]
              | Format => ["format"; "fmt"; "f"] | Modify => ["modify"; "mod"; "m"] | Register => ["register"; "reg"; "r"]
              | Stats => ["stats"; "s"] | Tags => ["tags"] | Test => ["test"; "t"] | Version => ["version"; "ver"; "v"]
              end%string).
(** what the arguments of the program call for: a command and its command line; without arguments the balance *)
Inductive calls : list bytes -> cmd -> list bytes -> Prop :=
| calls_nothing : calls [] Balance []
| calls_command n c line : called c n -> calls (n :: line) c line.
Definition a_switch (n : string) : option_def := mkOption (B n) true (fun v => exists x, switch_text v x).
Definition stats_options (td : today) : list option_def :=
  [a_switch "d"; a_switch "u"; a_switch "c"; mkOption (B "b") false (a_date td); mkOption (B "e") false (a_date td)].
Definition tags_options : list option_def := [a_switch "v"; a_switch "a"].
Definition accounts_options : list option_def := [a_switch "c"].
Definition commodities_options : list option_def := [a_switch "q"; a_switch "p"; a_switch "f"].
