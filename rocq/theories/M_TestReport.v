(** Model of cmd/coin/test.go: the whole command, with what it prints. *)
From Verif Require Import Base M_Parser M_Writer M_Files M_TestCmd M_Commands.

(** cmd/coin/main.go:11-36 aliases with newCommand, Parse and execute: what the command of this name prints for its
    arguments; None: there is none. Simplifications: the output is a function of the arguments (the loaded data does not change
    between tests), and arguments a command refuses, which end the program (flag.ExitOnError), are not modelled *)
Definition commands := bytes -> option (list bytes -> bytes).
(** test.go (root) 9-15, with the file of the test *)
Notation file_test := (bytes * ptest)%type.
(** cmd/coin/test.go:66-89: the words of the command line, the command and its output *)
Definition run_command (cs : commands) (cmd : bytes) : option bytes :=
  match words cmd with [] => None | w :: args => match cs w with None => None | Some c => Some (c args) end end.
Definition prepared (cs : commands) (t : file_test) : tst :=
  mkTst (fst t) (pt_line (snd t)) (pt_result (snd t)) (run_command cs (pt_cmd (snd t))).
(** cmd/coin/test.go:72-80: the messages of a test without command *)
Definition stop_message (cs : commands) (t : file_test) : bytes :=
  match words (pt_cmd (snd t)) with
  | [] => B "FAIL: test item is missing command " ++ location (prepared cs t) ++ [nl]
  | w :: _ => B "FAIL: command unknown: " ++ w ++ B " " ++ location (prepared cs t) ++ [nl]
  end.
(** what is printed on the output, what on the error output, and the files after it; Fail: the program ended early *)
Record outcome := mkOutcome { o_out : bytes; o_err : bytes; o_files : res fs }.
Definition also (out : bytes) (o : outcome) : outcome := mkOutcome (out ++ o_out o) (o_err o) (o_files o).

Section Report.
Variable cs : commands.
(** difflib.WriteUnifiedDiff with SplitLines and the fixed names and context, cmd/coin/test.go:105-112: the text printed for the
    expected and the actual output *)
Variable diff : bytes -> bytes -> bytes.
Variable verbose : bool.
(** cmd/coin/test.go:53-118 execute: [last] is lastTestFile, [todo] toUpdate *)
Fixpoint run_report (F : fs) (last : bytes) (todo : list (tst * bytes)) (success : bool) (ts : list file_test) : outcome :=
  match ts with
  | [] =>
      match (match todo with [] => Ok F | _ => update_test_file F todo end) with
      | Ok F' => mkOutcome (if verbose then [] else (if success then B "OK" else B "FAIL") ++ B " " ++ last ++ [nl]) [] (Ok F')
      | r => mkOutcome [] [] r
      end
  | ft :: r =>
      let t := prepared cs ft in
      let new_file := negb (eqb_bytes (test_file t) last) in
      let old := if new_file then last else [] in
      match (match todo with
             | [] => Ok (F, [])
             | _ => if new_file then do F' <- update_test_file F todo; Ok (F', []) else Ok (F, todo)
             end) with
      | Ok (F1, todo1) =>
          match ts_output t with
          | None => mkOutcome [] (stop_message cs ft) (Ok F1)
          | Some out =>
              match ts_result t with
              | [] => run_report F1 (test_file t) (todo1 ++ [(t, out)]) success r
              | expected =>
                  if eqb_bytes out expected then
                    also (if verbose then B "OK " ++ location t ++ B " " ++ pt_cmd (snd ft) ++ [nl]
                          else match old with [] => [] | _ => B "OK " ++ old ++ [nl] end)
                         (run_report F1 (test_file t) todo1 success r)
                  else
                    also (B "FAIL " ++ location t ++ B " " ++ pt_cmd (snd ft) ++ [nl] ++ diff expected out)
                         (run_report F1 (test_file t) todo1 false r)
              end
          end
      | Fail => mkOutcome [] [] Fail
      | Panic => mkOutcome [] [] Panic
      end
  end.
(** cmd/coin/test.go:46-52 *)
Definition test_report (F : fs) (ts : list file_test) : outcome :=
  match ts with [] => mkOutcome [] [] (Ok F) | t :: _ => run_report F (test_file (prepared cs t)) [] true ts end.
End Report.
(** the tests of a file: parser.go:74-79 with test.go (root) 19-33 *)
Definition tests_in (f : bytes) (items : list item) : list file_test :=
  flat_map (fun i => match i with ITest t => [(f, t)] | _ => [] end) items.
