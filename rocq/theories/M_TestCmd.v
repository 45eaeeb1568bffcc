(** Model of cmd/coin/test.go: which test files are updated, and how. *)
From Verif Require Import Base M_Parser M_Writer M_Files.

(** test.go (root) 9-15 with what running the command prints; None: the command is missing or unknown *)
Record tst := mkTst { ts_file : bytes; ts_line : nat; ts_result : bytes; ts_output : option bytes }.
(** test.go:35-37 (root) Location *)
Definition location (t : tst) : bytes := ts_file t ++ B ":" ++ print_nat (Z.of_nat (ts_line t)).
(** strings.Cut(s, ":") *)
Fixpoint cut_colon (s : bytes) : bytes * bytes :=
  match s with
  | [] => ([], [])
  | c :: r => if eqc c ":"%char then ([], r) else let '(a, b) := cut_colon r in (c :: a, b)
  end.
(** cmd/coin/test.go:120-123 file *)
Definition test_file (t : tst) : bytes := fst (cut_colon (location t)).
(** strconv.Atoi with the error ignored *)
Definition test_line (t : tst) : nat := match parse_int64 (snd (cut_colon (location t))) with Ok z => Z.to_nat z | _ => O end.
(** cmd/coin/test.go:139-165: copy lines up to the line of the test, then its result; at the end the rest.
    [line] counts the lines copied. *)
Fixpoint insert_results (lines : list bytes) (line : nat) (ts : list (nat * bytes)) : bytes :=
  match ts with
  | [] => concat (map put_line lines)
  | (n, r) :: ts' =>
      let k := (n - line)%nat in
      concat (map put_line (firstn k lines)) ++ r
      ++ insert_results (skipn k lines) (line + List.length (firstn k lines)) ts'
  end.
(** cmd/coin/test.go:125-172 updateTestFile: a file that cannot be opened ends the program *)
Definition update_test_file (F : fs) (ts : list (tst * bytes)) : res fs :=
  match ts with
  | [] => Panic
  | (t0, _) :: _ =>
      match F (test_file t0) with
      | None => Fail
      | Some text => Ok (fs_set F (test_file t0)
          (Some (insert_results (scan_lines text) 0 (map (fun tr => (test_line (fst tr), snd tr)) ts))))
      end
  end.
(** cmd/coin/test.go:46-118 execute: [last] is lastTestFile, [todo] toUpdate. What is printed is not modelled. *)
Fixpoint run_tests (F : fs) (last : bytes) (todo : list (tst * bytes)) (ts : list tst) : res fs :=
  match ts with
  | [] => match todo with [] => Ok F | _ => update_test_file F todo end
  | t :: r =>
      let new_file := negb (eqb_bytes (test_file t) last) in
      do Ft <- (match todo with
                | [] => Ok (F, [])
                | _ => if new_file then do F' <- update_test_file F todo; Ok (F', []) else Ok (F, todo)
                end);
      match ts_output t with
      | None => Ok (fst Ft)
      | Some out =>
          match ts_result t with
          | [] => run_tests (fst Ft) (test_file t) (snd Ft ++ [(t, out)]) r
          | _ => run_tests (fst Ft) (test_file t) (snd Ft) r
          end
      end
  end.
Definition test_command (F : fs) (ts : list tst) : res fs :=
  match ts with [] => Ok F | t :: _ => run_tests F (test_file t) [] ts end.
