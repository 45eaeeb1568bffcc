(** Model of Go's flag package as the commands use it (cmd/coin/main.go:30-36, 72-76: NewFlagSet, Parse), and of the command line of
    balance. *)
From Verif Require Import Base M_Amount M_Date M_Convert M_Ledger M_Report M_Database M_Coin.
Local Open Scope Z_scope.

(** an option: its name, whether it is a switch (IsBoolFlag), and which texts its Set accepts *)
Record flag_def := mkFlag { fl_name : bytes; fl_bool : bool; fl_set : bytes -> bool }.
(** flag.go parseOne, the scan for = ("equals cannot be first") *)
Fixpoint cut_equals (s : bytes) : bytes * option bytes :=
  match s with [] => ([], None) | c :: r => if eqc c "="%char then ([], Some r) else let '(n, v) := cut_equals r in (c :: n, v) end.
(** what an argument is: not an option; "--"; a syntax error; an option, perhaps with its value *)
Inductive arg_kind := NotFlag | EndOfFlags | BadFlag | Flag (name : bytes) (value : option bytes).
(** flag.go parseOne, first half *)
Definition name_value (s : bytes) : arg_kind :=
  match s with
  | [] => BadFlag
  | c :: r => if eqc c "-"%char || eqc c "="%char then BadFlag else let '(n, v) := cut_equals r in Flag (c :: n) v
  end.
Definition kind_of (s : bytes) : arg_kind :=
  match s with
  | d :: c :: r =>
      if negb (eqc d "-"%char) then NotFlag
      else if eqc c "-"%char then match r with [] => EndOfFlags | _ => name_value r end
      else name_value (c :: r)
  | _ => NotFlag
  end.
(** flag.go Parse and parseOne: the values set, in order, and the arguments. Fail: the program ends with a message (flag.ExitOnError),
    also for -h and -help *)
Fixpoint parse_flags (fs : list flag_def) (args : list bytes) : res (list (bytes * bytes) * list bytes) :=
  match args with
  | [] => Ok ([], [])
  | s :: r =>
      match kind_of s with
      | NotFlag => Ok ([], args)
      | EndOfFlags => Ok ([], r)
      | BadFlag => Fail
      | Flag name value =>
          match List.find (fun f => eqb_bytes (fl_name f) name) fs with
          | None => Fail
          | Some f =>
              if fl_bool f then
                let v := match value with Some v => v | None => B "true" end in
                if fl_set f v then do p <- parse_flags fs r; Ok ((name, v) :: fst p, snd p) else Fail
              else match value, r with
                   | Some v, _ => if fl_set f v then do p <- parse_flags fs r; Ok ((name, v) :: fst p, snd p) else Fail
                   | None, [] => Fail
                   | None, v :: r' => if fl_set f v then do p <- parse_flags fs r'; Ok ((name, v) :: fst p, snd p) else Fail
                   end
          end
      end
  end.
(** strconv.ParseBool *)
Definition parse_bool (s : bytes) : option bool :=
  if existsb (eqb_bytes s) [B "1"; B "t"; B "T"; B "true"; B "TRUE"; B "True"] then Some true
  else if existsb (eqb_bytes s) [B "0"; B "f"; B "F"; B "false"; B "FALSE"; B "False"] then Some false else None.
(** strconv.ParseInt(s, 0, 64). Simplification: numbers with a prefix (0x, 0o, 0b, or 0 for octal) or with _ are refused; Go takes them *)
Definition parse_int_flag (s : bytes) : option Z :=
  match snd (split_sign s) with
  | c :: _ :: _ => if eqc c "0"%char then None else match parse_int64 s with Ok z => Some z | _ => None end
  | _ => match parse_int64 s with Ok z => Some z | _ => None end
  end.

(** The value an option has after Parse: that of the last Set, or the default. *)
Fixpoint setting (name : bytes) (ss : list (bytes * bytes)) : option bytes :=
  match ss with
  | [] => None
  | (n, v) :: r => match setting name r with Some w => Some w | None => if eqb_bytes n name then Some v else None end
  end.

(** ** balance *)
Definition is_date (td : today) (s : bytes) : bool := match set_date td s with Ok _ => true | _ => false end.
Definition is_some {A} (o : option A) : bool := match o with Some _ => true | None => false end.
(** cmd/coin/balance.go:32-37 *)
Definition balance_flags (td : today) : list flag_def :=
  [mkFlag (B "b") false (is_date td); mkFlag (B "e") false (is_date td); mkFlag (B "p") false (fun _ => true); mkFlag (B "t") false (fun _ => true);
   mkFlag (B "z") true (fun v => is_some (parse_bool v)); mkFlag (B "l") false (fun v => is_some (parse_int_flag v))].
Definition date_setting (td : today) (name : bytes) (ss : list (bytes * bytes)) : option Z :=
  match setting name ss with Some v => match set_date td v with Ok t => Some t | _ => None end | None => None end.
Definition text_setting (name : bytes) (ss : list (bytes * bytes)) : bytes := match setting name ss with Some v => v | None => [] end.
Definition int_setting (name : bytes) (ss : list (bytes * bytes)) : Z :=
  match setting name ss with Some v => match parse_int_flag v with Some z => z | None => 0 end | None => 0 end.
Definition bool_setting (name : bytes) (ss : list (bytes * bytes)) : bool :=
  match setting name ss with Some v => match parse_bool v with Some x => x | None => false end | None => false end.
(** cmd/coin/main.go:72-76 with balance.go:39-83: from the arguments after the command's name to the text *)
Definition balance_line (td : today) (fuel : nat) (compile rexm : bytes -> bytes -> bool) (o : map_order) (comm : bytes -> commodity) (b : book) (tx_of : nat -> rtx)
    (args : list bytes) : res bytes :=
  do p <- parse_flags (balance_flags td) args;
  let ss := fst p in
  coin_balance fuel compile rexm o comm b tx_of (match snd p with a :: _ => Some a | [] => None end)
    (date_setting td (B "b") ss) (date_setting td (B "e") ss) (text_setting (B "t") ss) (text_setting (B "p") ss)
    (int_setting (B "l") ss) (bool_setting (B "z") ss).
(** cmd/coin/test.go:66-89 with balance.go:15-17, 29: the command of a test; [args] are the words after its name. Simplification: what a
    command printed before it ended the program is not kept. *)
Definition test_balance (td : today) (fuel : nat) (compile rexm : bytes -> bytes -> bool) (o : map_order) (comm : bytes -> commodity) (b : book) (tx_of : nat -> rtx)
    (args : list bytes) : bytes := match balance_line td fuel compile rexm o comm b tx_of args with Ok text => text | _ => [] end.
