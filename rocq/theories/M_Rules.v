(** Model of rules.go: import rules, their text form and the lookup of a rule for a payee.
    Rules files are read with the regular expressions of rules.go:147-151; the patterns written by the user are
    abstract: [valid p] says that regexp.MustCompile accepts p, [matches p s] is MatchString. *)
From Verif Require Import Base M_Amount M_Regex M_Parser M_Writer M_Names.

(** rules.go:123-127 Rule: Account ([None] = nil, written "--": drop the transaction), the pattern, Notes *)
Record rule := mkRule { r_account : option bytes; r_pattern : bytes; r_notes : list bytes }.
(** rules.go:16-20 the interface Rules: a rule or a pointer to a rule set. Pointers are positions in [ri_sets]. *)
Inductive rentry := ERule (r : rule) | ESet (n : nat).
(** rules.go:99-102 *)
Record ruleset := mkSet { s_name : bytes; s_rules : list rentry }.
(** rules.go:85-88 *)
Record arules := mkARules { ar_account : bytes; ar_rules : list rentry }.
(** rules.go:22-26; the map Accounts is an association list without duplicate keys, SetsByName is a function of
    [ri_sets]: the last set of that name *)
Record rindex := mkIndex { ri_accounts : list (bytes * arules); ri_sets : list ruleset }.
Definition empty_index : rindex := mkIndex [] [].

Fixpoint alookup {A} (k : bytes) (l : list (bytes * A)) : option A :=
  match l with [] => None | (k', v) :: r => if eqb_bytes k k' then Some v else alookup k r end.
Fixpoint aset {A} (k : bytes) (v : A) (l : list (bytes * A)) : list (bytes * A) :=
  match l with [] => [(k, v)] | (k', v') :: r => if eqb_bytes k k' then (k, v) :: r else (k', v') :: aset k v r end.
(** rules.go:202 SetsByName *)
Fixpoint last_named (i : nat) (name : bytes) (sets : list ruleset) (found : option nat) : option nat :=
  match sets with
  | [] => found
  | s :: r => last_named (S i) name r (if eqb_bytes name (s_name s) then Some i else found)
  end.
Definition sets_by_name (ri : rindex) (name : bytes) : option nat := last_named 0 name (ri_sets ri) None.

(** ** lookup *)
Section Lookup.
Variable matches : bytes -> bytes -> bool.
(** rules.go:90-97, 113-120, 138-143 RuleFor: the first entry with a rule for the payee. Sets are followed to a depth of
    [fuel]; [None]: that was not enough *)
Fixpoint rule_for (fuel : nat) (sets : list ruleset) (payee : bytes) (es : list rentry) {struct fuel} : option (option rule) :=
  (fix go (es : list rentry) : option (option rule) :=
     match es with
     | [] => Some None
     | ERule r :: rest => if matches (r_pattern r) payee then Some (Some r) else go rest
     | ESet n :: rest =>
         match fuel with
         | O => None
         | S f =>
             match rule_for f sets payee (s_rules (nth n sets (mkSet [] []))) with
             | None => None
             | Some (Some r) => Some (Some r)
             | Some None => go rest
             end
         end
     end) es.
End Lookup.
(** rules.go:28-36 AccountRulesFor; [by_ofx_id] is FindAccountOfxId (coin.go:313-320); without an account the program ends *)
Definition account_rules_for (by_ofx_id : bytes -> option bytes) (ri : rindex) (id : bytes) : res arules :=
  match alookup id (ri_accounts ri) with
  | Some ars => Ok ars
  | None => match by_ofx_id id with Some a => Ok (mkARules a []) | None => Fail end
  end.

(** ** reading *)
(** rules.go:147 patternRE *)
Definition is_pat (c : ascii) : bool :=
  is_word c || eqc c ":"%char || eqc c "$"%char || eqc c "^"%char || eqc c (chr 92) || eqc c "-"%char.
Definition rx_pat (n : string) : rx := RGrp n (rplus (RSet is_pat)).
(** rules.go:148 headerRE; both branches start with ^, so the match is at the start of the line *)
Definition headerRE : rx :=
  RAlt (rseq [RGrp "1" (rplus w_); rplus s_; rx_pat "2"]) (RGrp "3" (rplus w_)).
(** rules.go:149-151 bodyRE *)
Definition bodyRE : rx :=
  ralt [rseq [rplus s_; rx_pat "1"; ROpt (RGrp "2" (RSeq (rplus s_) (RGrp "3" (rseq [S_; RStar any_; S_]))))];
        rseq [rplus s_; rchar "@"%char; RGrp "4" (rplus w_)];
        rseq [rplus s_; rchar ";"%char; rplus s_; RGrp "5" (RStar any_)]].

Section Read.
Variable find : bytes -> res bytes.     (* MustFindAccount: Panic when there is none *)
Variable valid : bytes -> bool.

(** the group being read: an account's rules (by id) or a set (by position); its entries; is the last entry lastRule? *)
Inductive target := TAccount (id : bytes) | TSet (n : nat).
Record reading := mkReading { g_target : target; g_entries : list rentry; g_last : bool }.
(** setRules, rules.go:177, 182 *)
Fixpoint set_nth (n : nat) (es : list rentry) (sets : list ruleset) : list ruleset :=
  match sets, n with
  | [], _ => []
  | s :: r, O => mkSet (s_name s) es :: r
  | s :: r, S n' => s :: set_nth n' es r
  end.
Definition finish (ri : rindex) (g : option reading) : rindex :=
  match g with
  | None => ri
  | Some g =>
      match g_target g with
      | TAccount id => match alookup id (ri_accounts ri) with
                       | Some ars => mkIndex (aset id (mkARules (ar_account ars) (g_entries g)) (ri_accounts ri)) (ri_sets ri)
                       | None => ri
                       end
      | TSet n => mkIndex (ri_accounts ri) (set_nth n (g_entries g) (ri_sets ri))
      end
  end.
(** rules.go:170-184 *)
Definition header (ri : rindex) (line : bytes) : res (rindex * option reading) :=
  match rprefix headerRE line with
  | None => Ok (ri, None)
  | Some (_, cs) =>
      match cap "1" cs with
      | [] => let n := cap "3" cs in
              Ok (mkIndex (ri_accounts ri) (ri_sets ri ++ [mkSet n []]), Some (mkReading (TSet (List.length (ri_sets ri))) [] false))
      | id => do a <- find (cap "2" cs);
              Ok (mkIndex (aset id (mkARules a []) (ri_accounts ri)) (ri_sets ri), Some (mkReading (TAccount id) [] false))
      end
  end.
Definition add_note (es : list rentry) (note : bytes) : list rentry :=
  match rev es with
  | ERule r :: e => rev e ++ [ERule (mkRule (r_account r) (r_pattern r) (r_notes r ++ [note]))]
  | _ => es
  end.
(** rules.go:196-216, after a match of bodyRE *)
Definition body (ri : rindex) (g : reading) (cs : caps) : res reading :=
  match cap "1" cs with
  | _ :: _ =>
      do acc <- (if eqb_bytes (cap "1" cs) (B "--") then Ok None else do a <- find (cap "1" cs); Ok (Some a));
      if valid (cap "3" cs) then Ok (mkReading (g_target g) (g_entries g ++ [ERule (mkRule acc (cap "3" cs) [])]) true) else Panic
  | [] =>
      match cap "4" cs with
      | _ :: _ =>
          match sets_by_name ri (cap "4" cs) with
          | None => Panic
          | Some n => Ok (mkReading (g_target g) (g_entries g ++ [ESet n]) false)
          end
      | [] => Ok (if g_last g then mkReading (g_target g) (add_note (g_entries g) (cap "5" cs)) true else g)
      end
  end.
(** rules.go:162-226, one step for each line: lines of a group are taken as they are, as is the line that ends it;
    lines after a line without header are trimmed first *)
Fixpoint rules_loop (ri : rindex) (g : option reading) (lines : list bytes) : res rindex :=
  match lines with
  | [] => Ok (finish ri g)
  | line :: rest =>
      match g with
      | None => do rg <- header ri (trim_space line); rules_loop (fst rg) (snd rg) rest
      | Some g0 =>
          match rprefix bodyRE line with
          | Some (_, cs) => do g' <- body ri g0 cs; rules_loop ri (Some g') rest
          | None => do rg <- header (finish ri g) line; rules_loop (fst rg) (snd rg) rest
          end
      end
  end.
Definition scan_rules (line : bytes) (lines : list bytes) : res rindex :=
  do rg <- header empty_index line; rules_loop (fst rg) (snd rg) lines.
(** rules.go:153-159 ReadRules; an empty file gives a nil index *)
Definition read_rules (text : bytes) : res (option rindex) :=
  match scan_lines text with
  | [] => Ok None
  | line :: lines => do ri <- scan_rules line lines; Ok (Some ri)
  end.
End Read.

(** ** writing *)
(** Name(), rules.go:104-106, 129-131: a rule without account panics *)
Definition entry_name (sets : list ruleset) (e : rentry) : res bytes :=
  match e with
  | ERule r => match r_account r with Some a => Ok a | None => Panic end
  | ESet n => Ok (s_name (nth n sets (mkSet [] [])))
  end.
(** rules.go:108-111, 133-136 Write *)
Definition write_entry (sets : list ruleset) (max : nat) (e : rentry) : res bytes :=
  do n <- entry_name sets e;
  Ok (put_line (match e with ERule r => B "  " ++ pad_right max n ++ B " " ++ r_pattern r | ESet _ => B "  @" ++ pad_right max n end)).
(** rules.go:70-83 writeRules *)
Definition write_rules (sets : list ruleset) (es : list rentry) : res bytes :=
  do ns <- res_map (entry_name sets) es;
  do ls <- res_map (write_entry sets (list_max_nat (map (@List.length ascii) ns))) es;
  Ok (concat ls).
(** rules.go:38-68 RuleIndex.Write; [order] is the order of this iteration over the map Accounts, sort.Slice keeps no
    particular order of rules of the same account: [sorted] is what it made of [order] *)
Definition write_index (sorted : list (bytes * arules)) (ri : rindex) : res bytes :=
  do ss <- res_map (fun s => do w <- write_rules (ri_sets ri) (s_rules s); Ok (put_line (s_name s) ++ w)) (ri_sets ri);
  let max := list_max_nat (map (fun ia => List.length (fst ia)) (ri_accounts ri)) in
  do aa <- res_map (fun ia => do w <- write_rules (ri_sets ri) (ar_rules (snd ia));
                              Ok (put_line (pad_right max (fst ia) ++ B " " ++ ar_account (snd ia)) ++ w)) sorted;
  Ok (concat ss ++ concat aa).
