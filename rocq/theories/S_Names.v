(** Account names and tags: what users mean. *)
From Verif Require Import Base.

(** account [b] is below account [a]: its name is a's followed by ':' and more *)
Definition below (a b : bytes) : Prop := exists r, b = a ++ B ":" ++ r.
(** the colon separated segments of a name *)
Definition segments (n : bytes) (segs : list bytes) : Prop :=
  segs <> [] /\ Forall (fun s => ~ In ":"%char s) segs /\ n = join (B ":") segs.
(** one character per segment that is not empty, and the colons *)
Definition shortest (segs : list bytes) : Z :=
  Z.of_nat (List.length (filter (fun p => match p with [] => false | _ => true end) segs)) + Z.of_nat (List.length segs) - 1.

(** a tag key: letters, digits, '_', '-', '/' *)
Definition tag_char (c : ascii) : bool := is_word c || eqc c "/"%char || eqc c "-"%char.
(** a tag value as a user writes it: at least two characters, no commas, no white space at the ends *)
Definition plain_value (v : bytes) : Prop :=
  exists x y z, v = x :: y ++ [z] /\ ~ In ","%char v /\ is_space x = false /\ is_space z = false.
(** text after a comma in which something other than another comma follows *)
Definition something_follows (r : bytes) : Prop :=
  exists sp d r', r = sp ++ d :: r' /\ forallb is_space sp = true /\ is_space d = false /\ d <> ","%char.
Definition starts (p s : bytes) : Prop := exists r, s = p ++ r.

(** a tag expression of the -t options: [!]KEYREX[:VALUEREX]; the key ends at the first colon *)
Definition tag_exp (inverted : bool) (key : bytes) (value : option bytes) : bytes :=
  (if inverted then B "!" else []) ++ key ++ match value with Some v => B ":" ++ v | None => [] end.
