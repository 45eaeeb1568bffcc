(** Model of account names: account.go parentAndName, ShortenAccountName; coin.go MustFindAccount, FindAccounts. *)
From Verif Require Import Base M_Regex M_Parser.

(** Go string comparison s < t: bytewise lexicographic *)
Fixpoint less_bytes (s t : bytes) : bool :=
  match s, t with
  | _, [] => false
  | [], _ :: _ => true
  | a :: s', b :: t' => (code a <? code b) || ((code a =? code b) && less_bytes s' t')
  end.
(** sort.Strings: any sorting algorithm gives this result, equal strings are indistinguishable *)
Definition sort_strings (l : list bytes) : list bytes := stable_sort less_bytes l.

(** account.go:103-109 parentAndName: split at the last ':' *)
Definition parent_and_name (name : bytes) : bytes * bytes :=
  let segs := split_on ":"%char name in
  (join (B ":") (removelast segs), last segs []).
(** account.go:111-114 *)
Definition parent_name (name : bytes) : bytes := fst (parent_and_name name).

(** account.go:293-312 ShortenAccountName; [l - drop] is cut from the end of a segment *)
Fixpoint shorten_parts (over : Z) (parts : list bytes) : list bytes :=
  match parts with
  | [] => []
  | p :: r =>
      if 0 <? over then
        match p with
        | [] => p :: shorten_parts over r
        | _ =>
            let l := Z.of_nat (List.length p) in
            let drop := if over <? l - 1 then over else l - 1 in
            firstn (Z.to_nat (l - drop)) p :: shorten_parts (over - drop) r
        end
      else p :: r
  end.
Definition shorten_account_name (n : bytes) (size : Z) : bytes :=
  if Z.of_nat (List.length n) <=? size then n
  else join (B ":") (shorten_parts (Z.of_nat (List.length n) - size) (split_on ":"%char n)).

(** coin.go:350-362 FindAccounts over the keys of AccountsByName (in any order); [m] is the compiled
    pattern: the regular expressions a user can write are left abstract *)
Definition find_accounts (m : bytes -> bool) (names : list bytes) : list bytes :=
  sort_strings (filter m (sort_strings names)).
(** coin.go:298-303: the loop leaves at the first account for which [all] still holds *)
Fixpoint all_below (parent : bytes) (all : bool) (as_ : list bytes) : bool :=
  match as_ with
  | [] => all
  | a :: r => let all := all && has_prefix parent a in if all then all else all_below parent all r
  end.
(** coin.go:281-313 MustFindAccount *)
Definition must_find_account (compile : bytes -> bytes -> bool) (names : list bytes) (pattern : bytes) : res bytes :=
  if existsb (eqb_bytes pattern) names then Ok pattern
  else match find_accounts (compile pattern) names with
       | [] => Panic
       | [a] => Ok a
       | a :: r => if all_below a true r then Ok a else Panic
       end.
