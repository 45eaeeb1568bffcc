(** What an account pattern means: words found in the name, one after the other. *)
From Verif Require Import Base.

(** the same letter, in either case *)
Definition same_letter (a b : ascii) : Prop := a = b \/ exists i, 0 <= i < 26 /\ ((a = chr (65 + i) /\ b = chr (97 + i)) \/ (a = chr (97 + i) /\ b = chr (65 + i))).
Definition same_letters (a b : bytes) : Prop := Forall2 same_letter a b.
(** the characters of account names between colons *)
Definition part_of_name (c : ascii) : Prop := is_alpha c = true \/ is_digit c = true \/ In c (B "_/-").
Definition plain (w : bytes) : Prop := Forall part_of_name w.
Definition colons (s : bytes) : nat := List.length (filter (fun c => eqc c ":"%char) s).

(** a pattern: a word, then words after one colon ([true]) or after several ([false]) *)
Definition joint := (nat * bytes)%type.   (* colons beyond the first, word *)
Definition pattern_text (w : bytes) (js : list joint) : bytes := w ++ flat_map (fun j => repeat ":"%char (S (fst j)) ++ snd j) js.
(** [s] is the words in order; between words joined by one colon there is exactly one colon *)
Inductive spells : list joint -> bytes -> Prop :=
| sp_nil : spells [] []
| sp_cons n w js gap w' s : same_letters w w' -> (n = 0%nat -> colons gap = 1%nat) -> spells js s -> spells ((n, w) :: js) (gap ++ w' ++ s).
(** [s] contains the word *)
Definition contains (w s : bytes) : Prop := exists x w' y, s = x ++ w' ++ y /\ same_letters w w'.
