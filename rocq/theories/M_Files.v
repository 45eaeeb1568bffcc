(** Files as the commands that rewrite them see them: cmd/coin/format.go, modify.go, test.go. *)
From Verif Require Import Base.

(** The files there are and their contents. Directories, permissions, links and what the disk has not
    written yet at a power failure are not modelled. *)
Definition fs := bytes -> option bytes.
Definition fs_set (F : fs) (n : bytes) (v : option bytes) : fs := fun m => if eqb_bytes m n then v else F m.

(** One thing the operating system does at a time: os.CreateTemp, one byte of a write, os.Remove, os.Rename.
    A write of many bytes is many steps, so a crash can come after any part of it. *)
Inductive step := SCreate (f : bytes) | SAppend (f : bytes) (c : ascii) | SRemove (f : bytes) | SRename (f g : bytes).
Definition do_step (F : fs) (s : step) : fs :=
  match s with
  | SCreate f => fs_set F f (Some [])
  | SAppend f c => fs_set F f (match F f with Some t => Some (t ++ [c]) | None => None end)
  | SRemove f => fs_set F f None
  | SRename f g => fs_set (fs_set F g (F f)) f None
  end.
Definition run (F : fs) (l : list step) : fs := fold_left do_step l F.

(** A write call: the text to be written and how much of it gets written; less than all of it is an error. *)
Definition write_call := (bytes * nat)%type.
Definition failed (w : write_call) : bool := (snd w <? List.length (fst w))%nat.
Definition done (w : write_call) : bytes := firstn (snd w) (fst w).
(** transaction.go:81-117 Write returns at the first error *)
Fixpoint until_error (ws : list write_call) : bytes :=
  match ws with [] => [] | w :: r => done w ++ (if failed w then [] else until_error r) end.
(** format.go:54-74, modify.go:83-101: for each transaction the calls of Write and the call that ends the entry; errors
    are not looked at, the old file is removed and the new one takes its name *)
Definition rewrite_steps (fn tmp : bytes) (entries : list (list write_call * write_call)) : list step :=
  SCreate tmp :: map (SAppend tmp) (concat (map (fun e => until_error (fst e) ++ done (snd e)) entries))
  ++ [SRemove fn; SRename tmp fn].
(** test.go:128-172 updateTestFile: any error ends the program before the old file is removed *)
Definition checked_steps (fn tmp : bytes) (ws : list write_call) : list step :=
  SCreate tmp :: map (SAppend tmp) (until_error ws)
  ++ (if existsb failed ws then [] else [SRemove fn; SRename tmp fn]).
(** what the calls are meant to write *)
Definition intended (entries : list (list write_call * write_call)) : bytes :=
  concat (map (fun e => concat (map fst (fst e)) ++ fst (snd e)) entries).
