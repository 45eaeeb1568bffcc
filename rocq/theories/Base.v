(** Basics shared by the whole model: byte strings, results, small list and
    character helpers that stand for parts of the Go standard library. *)
From Coq Require Export String.
From Coq Require Export List Arith ZArith Lia Bool Ascii.
From Coq Require Export ZifyBool ZifyNat ZifyN.
Export ListNotations.
Global Open Scope Z_scope.
Global Open Scope list_scope.

Ltac Zify.zify_post_hook ::= Z.div_mod_to_equations.

(** Go strings and []byte: lists of 8-bit characters.
    Simplification: Go's regexp works on UTF-8 code points, the model on bytes. *)
Definition bytes := list ascii.
Definition B (s : string) : bytes := list_ascii_of_string s.
Arguments B _%string_scope.

(** Outcome of a Go function: [Ok v]; [Fail] = a returned error or check.* failure
    (which prints a message and calls os.Exit(1), check/check.go); [Panic] = a run-time panic
    (index out of range, nil dereference, explicit panic). *)
Inductive res (A : Type) : Type := Ok (a : A) | Fail | Panic.
Arguments Ok {A} a. Arguments Fail {A}. Arguments Panic {A}.
Definition bind {A C} (x : res A) (f : A -> res C) : res C :=
  match x with Ok a => f a | Fail => Fail | Panic => Panic end.
Notation "'do' x <- e1 ; e2" := (bind e1 (fun x => e2)) (at level 200, x pattern, e1 at level 100, e2 at level 200).
Definition is_ok {A} (x : res A) : bool := match x with Ok _ => true | _ => false end.

(** Character codes. *)
Definition code (c : ascii) : Z := Z.of_N (N_of_ascii c).
Definition chr (z : Z) : ascii := ascii_of_N (Z.to_N z).
Definition eqc (a b : ascii) : bool := Ascii.eqb a b.
Definition is_digit (c : ascii) : bool := (48 <=? code c) && (code c <=? 57).
Definition is_upper (c : ascii) : bool := (65 <=? code c) && (code c <=? 90).
Definition is_lower (c : ascii) : bool := (97 <=? code c) && (code c <=? 122).
Definition is_alpha (c : ascii) : bool := is_upper c || is_lower c.
(** RE2 [\w] *)
Definition is_word (c : ascii) : bool := is_alpha c || is_digit c || eqc c "_"%char.
(** RE2 [\s] = [\t\n\f\r ] *)
Definition is_space (c : ascii) : bool :=
  (code c =? 32) || (code c =? 9) || (code c =? 10) || (code c =? 12) || (code c =? 13).

Fixpoint eqb_bytes (a b : bytes) : bool :=
  match a, b with
  | [], [] => true
  | x :: a', y :: b' => eqc x y && eqb_bytes a' b'
  | _, _ => false
  end.

(** strings.Repeat of one character *)
Definition rep (c : ascii) (n : nat) : bytes := repeat c n.

(** fmt padding to width [w]: %*s pads left, %-*s pads right. *)
Definition pad_left (w : nat) (s : bytes) : bytes := rep " "%char (w - List.length s) ++ s.
Definition pad_right (w : nat) (s : bytes) : bytes := s ++ rep " "%char (w - List.length s).

(** strings.Split on a single character separator *)
Fixpoint split_on (sep : ascii) (s : bytes) : list bytes :=
  match s with
  | [] => [[]]
  | c :: r =>
      if eqc c sep then [] :: split_on sep r
      else match split_on sep r with
           | [] => [[c]]   (* unreachable: split_on is never empty *)
           | p :: ps => (c :: p) :: ps
           end
  end.

(** strings.Join *)
Fixpoint join (sep : bytes) (l : list bytes) : bytes :=
  match l with
  | [] => []
  | [x] => x
  | x :: r => x ++ sep ++ join sep r
  end.

(** decimal digits *)
Definition digit_val (c : ascii) : Z := code c - 48.
Fixpoint digits_val_acc (acc : Z) (s : bytes) : Z :=
  match s with [] => acc | c :: r => digits_val_acc (10 * acc + digit_val c) r end.
Definition digits_val (s : bytes) : Z := digits_val_acc 0 s.

Definition int64_min : Z := - 2 ^ 63.
Definition int64_max : Z := 2 ^ 63 - 1.

(** strconv.ParseInt(s, 10, 64): optional sign, one or more digits, range error outside int64. *)
Definition split_sign (s : bytes) : bool * bytes :=
  match s with
  | c :: r => if eqc c "-"%char then (true, r) else if eqc c "+"%char then (false, r) else (false, s)
  | [] => (false, [])
  end.
Definition parse_int64 (s : bytes) : res Z :=
  let neg := fst (split_sign s) in
  let ds := snd (split_sign s) in
  if negb (forallb is_digit ds) || (List.length ds =? 0)%nat then Fail
  else let v := if neg then - digits_val ds else digits_val ds in
       if (int64_min <=? v) && (v <=? int64_max) then Ok v else Fail.

(** decimal printing of a non-negative integer (big.Int / nat.utoa(10), strconv.Itoa) *)
Fixpoint print_nat_aux (fuel : nat) (n : Z) (acc : bytes) : bytes :=
  let acc' := chr (48 + n mod 10) :: acc in
  match fuel with
  | O => acc'
  | S f => if n / 10 =? 0 then acc' else print_nat_aux f (n / 10) acc'
  end.
Definition print_nat (n : Z) : bytes := print_nat_aux (Z.to_nat (Z.log2 n)) n [].
Definition print_int (n : Z) : bytes := if n <? 0 then "-"%char :: print_nat (- n) else print_nat n.

(** sort.Search(n, f): binary search, sort/search.go; first argument is fuel, [n] suffices. *)
Fixpoint search_loop (fuel : nat) (i j : nat) (f : nat -> bool) : nat :=
  match fuel with
  | O => i
  | S fu => if (i <? j)%nat then
              let h := ((i + j) / 2)%nat in
              if negb (f h) then search_loop fu (h + 1)%nat j f else search_loop fu i h f
            else i
  end.
Definition search (n : nat) (f : nat -> bool) : nat := search_loop n 0 n f.

(** stable insertion sort by a "less" test: the unique stable result of sort.SliceStable / sort.Stable *)
Fixpoint insert_by {A} (less : A -> A -> bool) (x : A) (l : list A) : list A :=
  match l with
  | [] => [x]
  | y :: r => if less y x then y :: insert_by less x r else x :: l
  end.
Fixpoint stable_sort {A} (less : A -> A -> bool) (l : list A) : list A :=
  match l with [] => [] | x :: r => insert_by less x (stable_sort less r) end.
