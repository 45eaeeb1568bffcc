(** Model of tags.go and of the tag handling of cmd/coin/modify.go. *)
From Verif Require Import Base M_Regex M_Parser M_Names M_Writer.

(** tags.go:9 #(?P<key>[\w-/]+)(:\s*(?P<value>[^,]+\S)\s*(,|$))? *)
Definition rx_tag_value : rx :=
  rseq [rchar ":"%char; RStar s_;
        RGrp "value" (RSeq (rplus (RSet (fun c => negb (eqc c ","%char)))) S_);
        RStar s_; RAlt (rchar ","%char) REnd].
Definition tagREX : rx :=
  rseq [rchar "#"%char; RGrp "key" (rplus (RSet is_acc)); ROpt rx_tag_value].

(** Regexp.FindAllStringSubmatch for an expression that never matches the empty text:
    the search goes on after the previous match *)
Fixpoint find_all (fuel : nat) (r : rx) (s : bytes) : list caps :=
  match fuel with
  | O => []
  | S f => match rsearch r s with None => [] | Some (rest, cs) => cs :: find_all f r rest end
  end.

(** tags.go:15 Tags: a map, as association list with distinct keys; nil and the empty map are not distinguished:
    ParseTags returns nil when there are no tags, and With's result is only written *)
Definition tags := list (bytes * bytes).
Fixpoint tag_set (k v : bytes) (t : tags) : tags :=
  match t with
  | [] => [(k, v)]
  | (k', v') :: r => if eqb_bytes k k' then (k', v) :: r else (k', v') :: tag_set k v r
  end.
(** tags.go:31-44 Includes and Value *)
Fixpoint tag_get (k : bytes) (t : tags) : option bytes :=
  match t with [] => None | (k', v) :: r => if eqb_bytes k k' then Some v else tag_get k r end.
(** tags.go:17-29 ParseTags *)
Definition line_tags (line : bytes) : tags :=
  map (fun cs => (cap "key" cs, cap "value" cs)) (find_all (List.length line) tagREX line).
Definition set_all (t : tags) (kvs : tags) : tags := fold_left (fun t kv => tag_set (fst kv) (snd kv) t) kvs t.
Definition parse_tags (lines : list bytes) : tags := fold_left (fun t l => set_all t (line_tags l)) lines [].
(** tags.go:46-52 Keys *)
Definition tag_keys (t : tags) : list bytes := sort_strings (map fst t).
(** tags.go:66-75 With *)
Definition tags_with (t t2 : tags) : tags := set_all (set_all [] t) t2.

(** tags.go:80-101; [compile] stands for regexp.MustCompile("(?i)"+...).MatchString: the user's regular
    expressions are left abstract. strings.SplitN(exp, ":", 2) splits at the first colon. *)
Record tag_matcher := mkTagMatcher { tm_key : bytes -> bool; tm_value : option (bytes -> bool); tm_inverted : bool }.
Definition new_tag_matcher (compile : bytes -> bytes -> bool) (exp : bytes) : option tag_matcher :=
  match exp with
  | [] => None
  | c :: r =>
      let '(inv, exp) := if eqc c "!"%char then (true, r) else (false, exp) in
      match split_on ":"%char exp with
      | [k] => Some (mkTagMatcher (compile k) None inv)
      | k :: vs => Some (mkTagMatcher (compile k) (Some (compile (join (B ":") vs))) inv)
      | [] => None (* not reached *)
      end
  end.
(** tags.go:103-113 Match; a nil Tags is the empty list *)
Definition tag_matches (m : tag_matcher) (kv : bytes * bytes) : bool :=
  tm_key m (fst kv) && match tm_value m with None => true | Some f => f (snd kv) end.
Definition tags_match (m : tag_matcher) (t : tags) : bool :=
  existsb (fun kv => let match_ := tag_matches m kv in match_ && negb (tm_inverted m) || negb match_ && tm_inverted m) t.

(** cmd/coin/modify.go:152-164 mustParseTags *)
Definition tag_text (kv : bytes * bytes) : bytes :=
  B "#" ++ fst kv ++ match snd kv with [] => [] | v => B ":" ++ v end.
Definition tag_line (t : tags) : bytes :=
  join (B ", ") (map (fun k => tag_text (k, match tag_get k t with Some v => v | None => [] end)) (tag_keys t)).
Definition must_parse_tags (val : bytes) : res bytes :=
  match parse_tags [val] with [] => Fail | t => Ok (tag_line t) end.
(** cmd/coin/modify.go:166-175 addTagLine *)
Definition add_tag_line (notes : list bytes) (line : bytes) : list bytes :=
  match notes with
  | [] => [line]
  | n :: r => if (List.length n + List.length line <? line_max)%nat then (n ++ B " " ++ line) :: r else notes ++ [line]
  end.
