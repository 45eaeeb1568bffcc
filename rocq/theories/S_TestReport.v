(** The report of the tests, said about commands and outputs. *)
From Verif Require Import Base M_Parser M_Writer M_TestReport S_Commands.

(** the words of the command line of the test are a command and its arguments, and it prints [out] *)
Definition prints (cs : commands) (t : ptest) (out : bytes) : Prop :=
  exists name args run, spaced (pt_cmd t) (name :: args) /\ cs name = Some run /\ out = run args.
(** a test with an expected output *)
Definition answered (t : ptest) : Prop := pt_result t <> [].
Definition passes (cs : commands) (t : ptest) : Prop := answered t /\ prints cs t (pt_result t).
Definition fails (cs : commands) (t : ptest) : Prop := answered t /\ exists out, prints cs t out /\ out <> pt_result t.
(** "file:line command" *)
Definition about (f : bytes) (t : ptest) : bytes := f ++ B ":" ++ print_nat (Z.of_nat (pt_line t)) ++ B " " ++ pt_cmd t.
(** what is to be read about one test *)
Inductive told (cs : commands) (diff : bytes -> bytes -> bytes) (quiet : bool) (f : bytes) (t : ptest) : bytes -> Prop :=
| told_open : ~ answered t -> told cs diff quiet f t []
| told_ok : passes cs t -> told cs diff quiet f t (if quiet then [] else B "OK " ++ about f t ++ [nl])
| told_fail out : answered t -> prints cs t out -> out <> pt_result t ->
    told cs diff quiet f t (B "FAIL " ++ about f t ++ [nl] ++ diff (pt_result t) out).
(** the tests of several files, file by file *)
Definition by_file (groups : list (bytes * list ptest)) : list file_test :=
  concat (map (fun g => map (fun t => (fst g, t)) (snd g)) groups).
(** the result of [f]'s tests in one line *)
Definition verdict_line (ok : bool) (f : bytes) : bytes := (if ok then B "OK " else B "FAIL ") ++ f ++ [nl].
