(** Model of what cmd/coin2html writes (Go, encoding/json with indentation) and of JSON.parse on the page. *)
From Verif Require Import Base.
Local Open Scope Z_scope.

(** JSON values; numbers are integers here (only Commodity.Decimals is exported as a number) *)
Inductive json := JNull | JBool (b : bool) | JNum (n : Z) | JStr (s : bytes) | JArr (l : list json) | JObj (l : list (bytes * json)).

Definition hex (n : Z) : ascii := nth (Z.to_nat n) (B "0123456789abcdef") "?"%char.
Definition quote : ascii := """"%char.
Definition bslash : ascii := "\"%char.
Definition tab : ascii := chr 9.
Definition nline : ascii := chr 10.
(** encoding/json appendString with HTML escaping (the default of Marshal and of Encoder), Go 1.24.
    Simplification: bytes above 127 are copied; Go replaces invalid UTF-8 by \ufffd and writes U+2028 and U+2029 as \u2028, \u2029. *)
Definition escape_char (c : ascii) : bytes :=
  if eqc c quote || eqc c bslash then [bslash; c]
  else if code c =? 8 then [bslash; "b"%char]
  else if code c =? 12 then [bslash; "f"%char]
  else if code c =? 10 then [bslash; "n"%char]
  else if code c =? 13 then [bslash; "r"%char]
  else if code c =? 9 then [bslash; "t"%char]
  else if (code c <? 32) || eqc c "<"%char || eqc c ">"%char || eqc c "&"%char then
    [bslash; "u"%char; "0"%char; "0"%char; hex (code c / 16); hex (code c mod 16)]
  else [c].
Definition encode_string (s : bytes) : bytes := quote :: flat_map escape_char s ++ [quote].
(** json.Indent with prefix "" and indent "\t" *)
Definition newline_at (d : nat) : bytes := nline :: rep tab d.
Fixpoint sep_by (sep : bytes) (l : list bytes) : bytes :=
  match l with [] => [] | [x] => x | x :: r => x ++ sep ++ sep_by sep r end.
Fixpoint encode (d : nat) (v : json) : bytes :=
  match v with
  | JNull => B "null"
  | JBool b => if b then B "true" else B "false"
  | JNum n => print_int n
  | JStr s => encode_string s
  | JArr l => match l with
              | [] => B "[]"
              | _ => B "[" ++ newline_at (S d) ++ sep_by (B "," ++ newline_at (S d)) (map (encode (S d)) l) ++ newline_at d ++ B "]"
              end
  | JObj l => match l with
              | [] => B "{}"
              | _ => B "{" ++ newline_at (S d) ++
                     sep_by (B "," ++ newline_at (S d)) (map (fun kv => encode_string (fst kv) ++ B ": " ++ encode (S d) (snd kv)) l) ++
                     newline_at d ++ B "}"
              end
  end.
(** cmd/coin2html/main.go:30-52: one data element of the page; Encode adds a line end, Fprintln another after the tag *)
Definition script_element (id : bytes) (v : json) : bytes :=
  B "<script type=""application/json"" id=""" ++ id ++ B """>" ++ [nline] ++ encode 0 v ++ [nline] ++ B "</script>" ++ [nline].
(** the text of a script element in the browser: up to "</script" (html.spec.whatwg.org, script data state).
    Simplification: the escaped states entered by "<!--" and upper case end tags are left out; they need a "<" too. *)
Fixpoint starts_with (p s : bytes) : bool :=
  match p, s with [], _ => true | x :: p', y :: s' => eqc x y && starts_with p' s' | _, [] => false end.
Fixpoint script_text (s : bytes) : bytes :=
  match s with [] => [] | c :: r => if starts_with (B "</script") s then [] else c :: script_text r end.

(** ** JSON.parse *)
Definition is_ws (c : ascii) : bool := (code c =? 32) || (code c =? 9) || (code c =? 10) || (code c =? 13).
Fixpoint skip_ws (s : bytes) : bytes := match s with c :: r => if is_ws c then skip_ws r else s | [] => [] end.
Definition unhex (c : ascii) : option Z :=
  if is_digit c then Some (code c - 48)
  else if (97 <=? code c) && (code c <=? 102) then Some (code c - 87)
  else if (65 <=? code c) && (code c <=? 70) then Some (code c - 55) else None.
(** the characters of a string after the opening quote. Simplification: \u escapes above 007f are not read *)
Fixpoint parse_chars (s : bytes) : option (bytes * bytes) :=
  match s with
  | [] => None
  | c :: r =>
      if eqc c quote then Some ([], r)
      else if eqc c bslash then
        match r with
        | [] => None
        | e :: r' =>
            let put x := match parse_chars r' with Some (t, z) => Some (x :: t, z) | None => None end in
            if eqc e quote || eqc e bslash || eqc e "/"%char then put e
            else if eqc e "b"%char then put (chr 8)
            else if eqc e "f"%char then put (chr 12)
            else if eqc e "n"%char then put (chr 10)
            else if eqc e "r"%char then put (chr 13)
            else if eqc e "t"%char then put (chr 9)
            else if eqc e "u"%char then
              match r' with
              | h1 :: h2 :: h3 :: h4 :: r'' =>
                  match unhex h1, unhex h2, unhex h3, unhex h4 with
                  | Some a, Some b, Some x, Some y =>
                      if (a =? 0) && (b =? 0) && (x <? 8)
                      then match parse_chars r'' with Some (t, z) => Some (chr (16 * x + y) :: t, z) | None => None end
                      else None
                  | _, _, _, _ => None
                  end
              | _ => None
              end
            else None
        end
      else if code c <? 32 then None
      else match parse_chars r with Some (t, z) => Some (c :: t, z) | None => None end
  end.
Fixpoint take_number (s : bytes) : bytes * bytes :=
  match s with c :: r => if is_digit c then let '(a, b) := take_number r in (c :: a, b) else ([], s) | [] => ([], []) end.
(** an integer. Simplification: fractions and exponents are not read, leading zeros are *)
Definition parse_number (s : bytes) : option (Z * bytes) :=
  let '(neg, s') := match s with c :: r => if eqc c "-"%char then (true, r) else (false, s) | [] => (false, s) end in
  match take_number s' with
  | ([], _) => None
  | (ds, r) => Some (if neg then - digits_val ds else digits_val ds, r)
  end.
Definition expect (p s : bytes) : option bytes := if starts_with p s then Some (skipn (List.length p) s) else None.
Fixpoint parse_value (fuel : nat) (s : bytes) : option (json * bytes) :=
  match fuel with
  | O => None
  | S f =>
      match skip_ws s with
      | [] => None
      | c :: r =>
          if eqc c quote then match parse_chars r with Some (t, z) => Some (JStr t, z) | None => None end
          else if eqc c "["%char then
            match skip_ws r with
            | x :: r' => if eqc x "]"%char then Some (JArr [], r') else match parse_items f r with Some (l, z) => Some (JArr l, z) | None => None end
            | [] => None
            end
          else if eqc c "{"%char then
            match skip_ws r with
            | x :: r' => if eqc x "}"%char then Some (JObj [], r') else match parse_members f r with Some (l, z) => Some (JObj l, z) | None => None end
            | [] => None
            end
          else if eqc c "t"%char then match expect (B "rue") r with Some z => Some (JBool true, z) | None => None end
          else if eqc c "f"%char then match expect (B "alse") r with Some z => Some (JBool false, z) | None => None end
          else if eqc c "n"%char then match expect (B "ull") r with Some z => Some (JNull, z) | None => None end
          else match parse_number (c :: r) with Some (n, z) => Some (JNum n, z) | None => None end
      end
  end
with parse_items (fuel : nat) (s : bytes) : option (list json * bytes) :=
  match fuel with
  | O => None
  | S f =>
      match parse_value f s with
      | None => None
      | Some (v, z) =>
          match skip_ws z with
          | x :: z' => if eqc x ","%char then match parse_items f z' with Some (l, z'') => Some (v :: l, z'') | None => None end
                       else if eqc x "]"%char then Some ([v], z') else None
          | [] => None
          end
      end
  end
with parse_members (fuel : nat) (s : bytes) : option (list (bytes * json) * bytes) :=
  match fuel with
  | O => None
  | S f =>
      match skip_ws s with
      | q :: r =>
          if eqc q quote then
            match parse_chars r with
            | Some (k, z) =>
                match skip_ws z with
                | x :: z' =>
                    if eqc x ":"%char then
                      match parse_value f z' with
                      | Some (v, z) =>
                          match skip_ws z with
                          | x :: z' => if eqc x ","%char then match parse_members f z' with Some (l, z'') => Some ((k, v) :: l, z'') | None => None end
                                       else if eqc x "}"%char then Some ([(k, v)], z') else None
                          | [] => None
                          end
                      | None => None
                      end
                    else None
                | [] => None
                end
            | None => None
            end
          else None
      | [] => None
      end
  end.
(** JSON.parse: one value and nothing else. Simplification: of members with the same key JavaScript keeps the last. *)
Definition json_parse (s : bytes) : option json :=
  match parse_value (2 * List.length s + 2) s with
  | Some (v, z) => match skip_ws z with [] => Some v | _ => None end
  | None => None
  end.
