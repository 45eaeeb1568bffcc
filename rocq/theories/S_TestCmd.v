(** Updated test files, said about lines. *)
From Verif Require Import Base M_Parser M_TestCmd.

(** every line of the list, in order, each followed by [add] of its number (counted from [n]) *)
Fixpoint lines_with (add : nat -> bytes) (n : nat) (ls : list bytes) : bytes :=
  match ls with [] => [] | l :: r => l ++ [nl] ++ add n ++ lines_with add (S n) r end.
(** the outputs of the tests at line [n] of file [f] that have no result yet *)
Definition new_results (ts : list tst) (f : bytes) (n : nat) : bytes :=
  concat (map (fun t => match ts_output t with Some o => o | None => [] end)
    (filter (fun t => eqb_bytes (ts_file t) f && (ts_line t =? n)%nat && match ts_result t with [] => true | _ => false end) ts)).
(** file [f] has a test without result *)
Definition to_update (ts : list tst) (f : bytes) : Prop := exists t, In t ts /\ ts_file t = f /\ ts_result t = [].
(** a text made of these lines *)
Definition plain_lines (ls : list bytes) : Prop := forall l, In l ls -> ~ In nl l /\ ~ In (chr 13) l.
Definition is_end (l : bytes) : Prop := exists a b, l = a ++ B "end test" ++ b /\ forallb is_ascii_space (a ++ b) = true.
Definition text_of_lines (ls : list bytes) : bytes := concat (map (fun l => l ++ [nl]) ls).
(** the entry [j] of the updated file for the entry [i] of the original one: a test without result has the
    lines [R n] put at its line number [n] *)
From Verif Require Import S_Ledger.
Definition updated (R : nat -> list bytes) (i j : item) : Prop :=
  match i with
  | ITest t => exists n, j = ITest (mkPTest (pt_cmd t) (match pt_result t with [] => text_of_lines (R (pt_line t)) | r => r end) n)
  | _ => same_item i j
  end.
