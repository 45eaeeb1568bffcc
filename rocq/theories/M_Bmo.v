(** Model of cmd/ofx2coin/bmo.go: the reader that repairs the files of one bank. *)
From Verif Require Import Base M_Parser.

(** bmo.go:18-22 *)
Definition ignored : list bytes := [B "<BANKMSGSET><BANKMSGSETV1>" ++ [nl]; B "<BANKMSGSETV1><BANKMSGSET>" ++ [nl]].
Definition empty_line : bytes := [nl].
Definition ofx_line : bytes := B "<OFX>" ++ [nl].
(** bmo.go:28-35; [b_rest] is what the underlying reader has not delivered yet *)
Record bmo := mkBmo { b_rest : bytes; b_last : bytes; b_header : bool; b_body : bool; b_blank : bool }.
(** bmo.go:24-26 *)
Definition new_bmo (text : bytes) : bmo := mkBmo text [] false false false.
(** bufio.Reader.ReadBytes('\n'): the line with its newline, or everything that is left and io.EOF *)
Fixpoint read_bytes (s : bytes) : bytes * bool * bytes :=
  match s with
  | [] => ([], false, [])
  | c :: r => if eqc c nl then ([c], true, r) else let '(l, found, rest) := read_bytes r in (c :: l, found, rest)
  end.
(** what ends the loop: io.EOF, the blank line to be injected, or a line to be delivered *)
Inductive line_end := AtEof | Inject | Deliver.
(** bmo.go:38-71 the loop; every round consumes a line *)
Fixpoint bmo_loop (fuel : nat) (b : bmo) : bmo * line_end :=
  match fuel with
  | O => (b, AtEof)
  | S f =>
      let '(l, found, rest) := read_bytes (b_rest b) in
      if negb found then (mkBmo rest l (b_header b) (b_body b) (b_blank b), AtEof)
      else if negb (b_header b) && eqb_bytes l empty_line then bmo_loop f (mkBmo rest l (b_header b) (b_body b) (b_blank b))
      else if negb (b_body b) then
        if eqb_bytes l ofx_line then
          (mkBmo rest l true true (b_blank b), if b_blank b then Deliver else Inject)
        else (mkBmo rest l true false (b_blank b || eqb_bytes l empty_line), Deliver)
      else if existsb (eqb_bytes l) ignored then bmo_loop f (mkBmo rest l true true (b_blank b))
      else (mkBmo rest l true true (b_blank b), Deliver)
  end.
(** bmo.go:37-76 Read into a buffer of [size] bytes: the bytes read, io.EOF, the new state *)
Definition bmo_read (size : nat) (b : bmo) : bytes * bool * bmo :=
  let deliver b := (firstn size (b_last b), false, mkBmo (b_rest b) (skipn size (b_last b)) (b_header b) (b_body b) (b_blank b)) in
  match b_last b with
  | [] =>
      let '(b', e) := bmo_loop (S (List.length (b_rest b))) b in
      match e with
      | AtEof => ([], true, b')
      | Inject => (firstn size empty_line, false, b')
      | Deliver => deliver b'
      end
  | _ => deliver b
  end.
(** a client reading until io.EOF; the i-th buffer has [size i] bytes. None: not at the end after [fuel] reads *)
Fixpoint drain (fuel : nat) (size : nat -> nat) (i : nat) (b : bmo) : option bytes :=
  match fuel with
  | O => None
  | S f =>
      let '(out, eof, b') := bmo_read (size i) b in
      if eof then Some out else option_map (app out) (drain f size (S i) b')
  end.
