(** Model of coin.go ToRegex: which account names a pattern matches. *)
From Verif Require Import Base M_Regex M_Names.

(** (?i): characters are compared without case. Simplification: only ASCII letters; RE2 also folds U+017F and U+212A, which account
    names cannot contain (account.go:81-83). *)
Definition lower (c : ascii) : ascii := if is_upper c then chr (code c + 32) else c.
Definition ci_char (c : ascii) : rx := RSet (fun x => eqc (lower x) (lower c)).
(** a word of the pattern as a regular expression. Simplification: of the operators a user may put into a word only $ is read as one
    ([^] see below); the theorems are about words of plain characters. *)
Fixpoint word_rx (w : bytes) : rx :=
  match w with [] => REps | c :: r => RSeq (if eqc c "$"%char then REnd else ci_char c) (word_rx r) end.
(** coin.go:323-324 multiple, single *)
Definition part_char (c : ascii) : bool := is_word c || eqc c "/"%char || eqc c "-"%char.
Definition multiple : rx := RStar (RSet (fun c => part_char c || eqc c ":"%char)).
Definition single : rx := RSeq (RStar (RSet part_char)) (RSeq (rchar ":"%char) (RStar (RSet part_char))).
(** coin.go:329-342: the loop over words[1:]; [last] is wordLast *)
Fixpoint words_rx (ws : list bytes) (last : bool) (r : rx) : rx :=
  match ws with
  | [] => r
  | [] :: ws => words_rx ws false (if last then RSeq r multiple else r)
  | w :: ws => words_rx ws true (RSeq (if last then RSeq r single else r) (word_rx w))
  end.
(** coin.go:322-345 ToRegex and MatchString. A leading ^ is the start of the text: the match is not searched further on. *)
Definition to_regex (p : bytes) : rx := match split_on ":"%char p with w :: ws => words_rx ws true (word_rx w) | [] => REps end.
Definition account_match (pattern name : bytes) : bool :=
  match pattern with
  | c :: p => if eqc c "^"%char then match rprefix (to_regex p) name with Some _ => true | None => false end
              else match rsearch (to_regex pattern) name with Some _ => true | None => false end
  | [] => match rsearch (to_regex []) name with Some _ => true | None => false end
  end.
