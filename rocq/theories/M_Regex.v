(** Regular expressions as used by the program: Go regexp (RE2 syntax, Perl-like leftmost-first
    priorities) modelled by a backtracking matcher in continuation passing style, and rex/rex.go. *)
From Verif Require Import Base.

Inductive rx : Type :=
| REps                                  (* empty *)
| RSet (f : ascii -> bool)              (* one character of a class *)
| RSeq (a b : rx)
| RAlt (a b : rx)                       (* a|b, a preferred *)
| ROpt (a : rx)                         (* a?, greedy *)
| RStar (a : rx)                        (* a*, greedy *)
| RGrp (name : string) (a : rx)         (* (?P<name>a) *)
| REnd.                                 (* $ without (?m) *)

Definition caps := list (string * bytes).   (* most recent capture first *)

(** match [r] at the start of [s], then continue with [k] on the rest *)
Fixpoint rmatch {R : Type} (r : rx) (s : bytes) (cs : caps) (k : bytes -> caps -> option R) {struct r} : option R :=
  match r with
  | REps => k s cs
  | RSet f => match s with c :: s' => if f c then k s' cs else None | [] => None end
  | RSeq a b => rmatch a s cs (fun s' cs' => rmatch b s' cs' k)
  | RAlt a b => match rmatch a s cs k with Some x => Some x | None => rmatch b s cs k end
  | ROpt a => match rmatch a s cs k with Some x => Some x | None => k s cs end
  | RStar a =>
      (fix star (fuel : nat) (s : bytes) (cs : caps) {struct fuel} : option R :=
         match fuel with
         | O => k s cs
         | S f => match rmatch a s cs (fun s' cs' => if (List.length s' <? List.length s)%nat then star f s' cs' else None) with
                  | Some x => Some x
                  | None => k s cs
                  end
         end) (List.length s) s cs
  | RGrp n a => rmatch a s cs (fun s' cs' => k s' ((n, firstn (List.length s - List.length s') s) :: cs'))
  | REnd => match s with [] => k s cs | _ => None end
  end.

(** result: text after the match and captures *)
Definition rprefix (r : rx) (s : bytes) : option (bytes * caps) :=
  rmatch r s [] (fun s' cs => Some (s', cs)).
(** unanchored leftmost search (Regexp.FindSubmatch) *)
Fixpoint rsearch (r : rx) (s : bytes) : option (bytes * caps) :=
  match rprefix r s with
  | Some x => Some x
  | None => match s with [] => None | _ :: s' => rsearch r s' end
  end.

(** rex.go:36-60 Match: a name used once keeps its name, the i-th of several occurrences is called name<i>.
    [rex_names] lists names in order of the opening parentheses (Regexp.SubexpNames). *)
Fixpoint rex_names (r : rx) : list string :=
  match r with
  | REps | RSet _ | REnd => []
  | RSeq a b | RAlt a b => rex_names a ++ rex_names b
  | ROpt a | RStar a => rex_names a
  | RGrp n a => n :: rex_names a
  end.
Definition count_name (n : string) (l : list string) : nat :=
  List.length (filter (String.eqb n) l).
Definition suffix_name (n : string) (i : nat) : string :=
  String.append n (string_of_list_ascii (print_nat (Z.of_nat i))).
(** rename the groups of [r]; [seen] are the names before it, [all] all names *)
Fixpoint rex_rename (all : list string) (r : rx) (seen : list string) : rx * list string :=
  match r with
  | REps | RSet _ | REnd => (r, seen)
  | RSeq a b => let '(a', s1) := rex_rename all a seen in let '(b', s2) := rex_rename all b s1 in (RSeq a' b', s2)
  | RAlt a b => let '(a', s1) := rex_rename all a seen in let '(b', s2) := rex_rename all b s1 in (RAlt a' b', s2)
  | ROpt a => let '(a', s1) := rex_rename all a seen in (ROpt a', s1)
  | RStar a => let '(a', s1) := rex_rename all a seen in (RStar a', s1)
  | RGrp n a =>
      let n' := if (count_name n all =? 1)%nat then n else suffix_name n (S (count_name n seen)) in
      let '(a', s1) := rex_rename all a (seen ++ [n]) in (RGrp n' a', s1)
  end.
Definition rex_compile (r : rx) : rx := fst (rex_rename (rex_names r) r []).

(** match["name"]: "" when the group took no part in the match *)
Fixpoint cap (n : string) (cs : caps) : bytes :=
  match cs with
  | [] => []
  | (n', v) :: r => if String.eqb n n' then v else cap n r
  end.

(** syntax helpers *)
Definition rchar (c : ascii) : rx := RSet (eqc c).
Fixpoint rlit (s : bytes) : rx :=
  match s with [] => REps | [c] => rchar c | c :: r => RSeq (rchar c) (rlit r) end.
Definition rplus (a : rx) : rx := RSeq a (RStar a).
Fixpoint rseq (l : list rx) : rx :=
  match l with [] => REps | [a] => a | a :: r => RSeq a (rseq r) end.
Fixpoint ralt (l : list rx) : rx :=
  match l with [] => REps | [a] => a | a :: r => RAlt a (ralt r) end.
Definition d_ : rx := RSet is_digit.                       (* \d *)
Definition w_ : rx := RSet is_word.                        (* \w *)
Definition s_ : rx := RSet is_space.                       (* \s *)
Definition S_ : rx := RSet (fun c => negb (is_space c)).   (* \S *)
Definition any_ : rx := RSet (fun c => negb (code c =? 10)). (* . *)
