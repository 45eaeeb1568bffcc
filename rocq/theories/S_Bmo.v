(** The repaired text, said about lines. *)
From Verif Require Import Base M_Parser.

(** the lines of a text that end in a newline, with it *)
Definition whole_lines (text : bytes) : list bytes := map (fun l => l ++ [nl]) (removelast (split_on nl text)).
Definition is_line (s : string) (l : bytes) : bool := eqb_bytes l (B s ++ [nl]).
Definition is_blank (l : bytes) : bool := eqb_bytes l [nl].
Fixpoint without_leading_blanks (ls : list bytes) : list bytes :=
  match ls with [] => [] | l :: r => if is_blank l then without_leading_blanks r else ls end.
(** the text from <OFX> on loses the two invalid lines *)
Definition body (ls : list bytes) : list bytes :=
  filter (fun l => negb (is_line "<BANKMSGSET><BANKMSGSETV1>" l || is_line "<BANKMSGSETV1><BANKMSGSET>" l)) ls.
(** before <OFX> comes a blank line: one is added if the header has [no blank line yet] *)
Fixpoint header_and_body (blank_seen : bool) (ls : list bytes) : list bytes :=
  match ls with
  | [] => []
  | l :: r => if is_line "<OFX>" l then (if blank_seen then [] else [[nl]]) ++ l :: body r
              else l :: header_and_body (blank_seen || is_blank l) r
  end.
Definition repaired (text : bytes) : bytes := concat (header_and_body false (without_leading_blanks (whole_lines text))).
