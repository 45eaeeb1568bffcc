(** What an import rules file means (cmd/ofx2coin/README.md, "ofx.rules"). *)
From Verif Require Import Base M_Regex M_Parser S_Ledger M_Rules.

(** the lines of a group and its header *)
Inductive sline := SRule (account pattern : bytes) | SSet (name : bytes) | SNote (text : bytes).
Inductive shead := HAccount (id account : bytes) | HSet (name : bytes).
Definition sgroup := (shead * list sline)%type.

Definition spaces (s : bytes) : Prop := forallb is_space s = true /\ line_text s.
Definition is_words (s : bytes) : Prop := s <> [] /\ forallb is_word s = true.
(** what can stand for an account in a rules file: letters, digits, '_' and : $ ^ \ - *)
Definition acc_char (c : ascii) : bool := is_word c || existsb (eqc c) (chr 92 :: B ":$^-").
Definition acc_text (s : bytes) : Prop := s <> [] /\ forallb acc_char s = true.
(** a pattern: nothing, or at least two characters, without blanks at the ends *)
Definition ends_visible (s : bytes) : Prop := exists c m d, s = c :: m ++ [d] /\ is_space c = false /\ is_space d = false.
Definition pat_text (s : bytes) : Prop := line_text s /\ (s = [] \/ ends_visible s).

(** how lines are written: blanks are free, but the lines of a group start with one *)
Inductive line_is : sline -> bytes -> Prop :=
| li_rule sp1 a sp2 p sp3 : spaces sp1 -> sp1 <> [] -> acc_text a -> spaces sp2 -> sp2 <> [] -> pat_text p -> p <> [] -> spaces sp3 ->
    line_is (SRule a p) (sp1 ++ a ++ sp2 ++ p ++ sp3)
| li_any sp1 a sp2 : spaces sp1 -> sp1 <> [] -> acc_text a -> spaces sp2 -> line_is (SRule a []) (sp1 ++ a ++ sp2)
| li_set sp1 n sp2 : spaces sp1 -> sp1 <> [] -> is_words n -> spaces sp2 -> line_is (SSet n) (sp1 ++ B "@" ++ n ++ sp2)
| li_note sp1 sp2 t : spaces sp1 -> sp1 <> [] -> spaces sp2 -> sp2 <> [] -> line_text t -> (forall c r, t = c :: r -> is_space c = false) ->
    line_is (SNote t) (sp1 ++ B ";" ++ sp2 ++ t).
Inductive head_is : shead -> bytes -> Prop :=
| hi_account id sp1 a sp2 : is_words id -> spaces sp1 -> sp1 <> [] -> acc_text a -> spaces sp2 -> head_is (HAccount id a) (id ++ sp1 ++ a ++ sp2)
| hi_set n sp : is_words n -> spaces sp -> head_is (HSet n) (n ++ sp).
(** between groups: empty lines, or lines starting with punctuation *)
Definition between (l : bytes) : Prop := forallb is_space l = true \/ exists c r, l = c :: r /\ is_ascii_space c = false /\ is_word c = false.
Inductive groups_are : list sgroup -> list bytes -> Prop :=
| ga_nil : groups_are [] []
| ga_group h ls gs hl bls seps rest : head_is h hl -> Forall2 line_is ls bls -> Forall between seps -> groups_are gs rest ->
    groups_are ((h, ls) :: gs) (hl :: bls ++ seps ++ rest).
Definition file_is (gs : list sgroup) (lines : list bytes) : Prop :=
  exists seps rest, lines = seps ++ rest /\ Forall between seps /\ groups_are gs rest.

(** ** meaning *)
(** the nearest set of that name above, with what is above it; groups are listed from the nearest upward *)
Fixpoint nearest (n : bytes) (above : list sgroup) : option (list sgroup * list sline) :=
  match above with
  | [] => None
  | (HSet m, ls) :: r => if eqb_bytes n m then Some (r, ls) else nearest n r
  | _ :: r => nearest n r
  end.
Definition is_note (l : sline) : bool := match l with SNote _ => true | _ => false end.
Definition starts_with_note (ls : list sline) : bool := match ls with l :: _ => is_note l | [] => false end.
(** the account meant, where [find] says which account a name or pattern stands for; -- is for transactions to drop *)
Definition account_is (find : bytes -> res bytes) (a : bytes) (acc : option bytes) : Prop :=
  (a = B "--" /\ acc = None) \/ (a <> B "--" /\ exists n, find a = Ok n /\ acc = Some n).
(** [means find above ls rs]: below the groups [above] the lines [ls] stand for the rules [rs], in this order: notes belong
    to the rule they follow, a set stands for its own rules *)
Inductive means (find : bytes -> res bytes) : list sgroup -> list sline -> list rule -> Prop :=
| mn_nil above : means find above [] []
| mn_rule above a p acc notes ls rs : account_is find a acc -> starts_with_note ls = false -> means find above ls rs ->
    means find above (SRule a p :: map SNote notes ++ ls) (mkRule acc p notes :: rs)
| mn_set above n above' ls' rs' ls rs : nearest n above = Some (above', ls') -> means find above' ls' rs' -> means find above ls rs ->
    means find above (SSet n :: ls) (rs' ++ rs)
| mn_note above n ls rs : means find above ls rs -> means find above (SNote n :: ls) rs.

(** the file as a whole: accounts are known, patterns valid, sets are defined above the groups that refer to them and do not
    refer to themselves *)
Definition good_group (find : bytes -> res bytes) (valid : bytes -> bool) (above : list sgroup) (g : sgroup) : Prop :=
  (exists rs, means find above (snd g) rs) /\
  (forall a p, In (SRule a p) (snd g) -> valid p = true) /\
  (forall n, fst g = HSet n -> ~ In (SSet n) (snd g)) /\
  (forall id a, fst g = HAccount id a -> exists n, find a = Ok n).
Fixpoint good_file (find : bytes -> res bytes) (valid : bytes -> bool) (above : list sgroup) (gs : list sgroup) : Prop :=
  match gs with [] => True | g :: r => good_group find valid above g /\ good_file find valid (g :: above) r end.
(** the group in force for an account id: the last one *)
Fixpoint group_for (id : bytes) (above : list sgroup) : option (list sgroup * bytes * list sline) :=
  match above with
  | [] => None
  | (HAccount i a, ls) :: r => if eqb_bytes id i then Some (r, a, ls) else group_for id r
  | _ :: r => group_for id r
  end.

(** ** the rules an entry of an index stands for *)
Inductive expands (sets : list ruleset) : list rentry -> list rule -> Prop :=
| ex_nil : expands sets [] []
| ex_rule r es rs : expands sets es rs -> expands sets (ERule r :: es) (r :: rs)
| ex_set n s es rs1 rs2 : nth_error sets n = Some s -> expands sets (s_rules s) rs1 -> expands sets es rs2 ->
    expands sets (ESet n :: es) (rs1 ++ rs2).
(** [found_rule r rs payee]: r is the first of rs whose pattern matches *)
Definition first_match (matches : bytes -> bytes -> bool) (payee : bytes) (rs : list rule) (o : option rule) : Prop :=
  match o with
  | None => forall r, In r rs -> matches (r_pattern r) payee = false
  | Some r => exists before after, rs = before ++ r :: after /\ matches (r_pattern r) payee = true /\
                forall r', In r' before -> matches (r_pattern r') payee = false
  end.

(** ** dumped rules *)
Definition no_notes (r : rule) : rule := mkRule (r_account r) (r_pattern r) [].
(** rules that can be dumped: every rule has an account, accounts are written with the characters a rules file allows and are
    found by their names, patterns have no line breaks, set names are distinct, no set refers to itself *)
Definition entry_dumpable (find : bytes -> res bytes) (e : rentry) : Prop :=
  match e with
  | ERule r => exists a, r_account r = Some a /\ acc_text a /\ a <> B "--" /\ find a = Ok a /\ line_text (r_pattern r)
  | ESet _ => True
  end.
Definition dumpable (find : bytes -> res bytes) (ri : rindex) : Prop :=
  NoDup (map s_name (ri_sets ri)) /\
  (forall i s, nth_error (ri_sets ri) i = Some s -> ~ In (ESet i) (s_rules s) /\ Forall (entry_dumpable find) (s_rules s)) /\
  (forall id ars, In (id, ars) (ri_accounts ri) -> acc_text (ar_account ars) /\ find (ar_account ars) = Ok (ar_account ars) /\ Forall (entry_dumpable find) (ar_rules ars)).
