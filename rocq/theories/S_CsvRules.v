(** What the sources of a csv.rules file mean (cmd/csv2coin/README.md, "source mapping"). *)
From Verif Require Import Base M_Regex M_Parser S_Ledger M_Rules S_Rules M_Csv.

(** the lines of a source: a column; what is extracted from a column; what is composed of other values; the same on a condition *)
Inductive cline :=
| CColumn (name : bytes) (col : Z)
| CExtract (name : bytes) (col : Z) (out re : bytes)
| CDerive (name : bytes) (out : bytes)
| CWhen (name : bytes) (out cond re : bytes).
Definition cline_name (l : cline) : bytes := match l with CColumn n _ | CExtract n _ _ _ | CDerive n _ | CWhen n _ _ _ => n end.
Definition cline_field (l : cline) : field :=
  match l with
  | CColumn _ i => mkField (Some i) [] [] None
  | CExtract _ i out re => mkField (Some i) out [] (Some re)
  | CDerive _ out => mkField None out [] None
  | CWhen _ out c re => mkField None out c (Some re)
  end.
Definition quotes (s : bytes) : bytes := [quote] ++ s ++ [quote].
(** templates and expressions: something without double quotes *)
Definition unquoted (s : bytes) : Prop := s <> [] /\ line_text s /\ ~ In quote s.
(** no blanks at the ends *)
Definition tight (s : bytes) : Prop := trim_space s = s.
(** a number the program can read *)
Definition number (ds : bytes) (i : Z) : Prop := ds <> [] /\ forallb is_digit ds = true /\ i = digits_val ds /\ i <= int64_max.
(** how lines are written: they start with blanks; no blanks at the end unless there is an expression *)
Inductive cline_is : cline -> bytes -> Prop :=
| ci_column sp1 n sp2 ds i : spaces sp1 -> sp1 <> [] -> is_words n -> spaces sp2 -> sp2 <> [] -> number ds i ->
    cline_is (CColumn n i) (sp1 ++ n ++ sp2 ++ ds)
| ci_extract sp1 n sp2 ds i sp3 out sp4 re sp5 : spaces sp1 -> sp1 <> [] -> is_words n -> spaces sp2 -> sp2 <> [] -> number ds i ->
    spaces sp3 -> sp3 <> [] -> unquoted out -> tight out -> spaces sp4 -> sp4 <> [] -> unquoted re -> tight re -> spaces sp5 ->
    cline_is (CExtract n i out re) (sp1 ++ n ++ sp2 ++ ds ++ sp3 ++ quotes out ++ sp4 ++ re ++ sp5)
| ci_derive sp1 n sp2 out : spaces sp1 -> sp1 <> [] -> is_words n -> spaces sp2 -> sp2 <> [] -> unquoted out ->
    cline_is (CDerive n out) (sp1 ++ n ++ sp2 ++ quotes out)
| ci_when sp1 n sp2 out sp3 c sp4 re sp5 : spaces sp1 -> sp1 <> [] -> is_words n -> spaces sp2 -> sp2 <> [] -> unquoted out ->
    spaces sp3 -> sp3 <> [] -> is_words c -> spaces sp4 -> sp4 <> [] -> unquoted re -> tight re -> spaces sp5 ->
    cline_is (CWhen n out c re) (sp1 ++ n ++ sp2 ++ quotes out ++ sp3 ++ c ++ sp4 ++ re ++ sp5).
Definition cline_valid (valid : bytes -> bool) (l : cline) : Prop :=
  match l with CExtract _ _ _ re | CWhen _ _ _ re => valid re = true | _ => True end.
(** a source: its name, the number of lines to skip, its lines *)
Record csource := mkCSource { c_name : bytes; c_skip : Z; c_lines : list cline }.
Inductive source_is : csource -> list bytes -> Prop :=
| si n sp1 ds i sp2 ls bls : is_words n -> spaces sp1 -> sp1 <> [] -> number ds i -> spaces sp2 -> Forall2 cline_is ls bls ->
    source_is (mkCSource n i ls) ((n ++ sp1 ++ ds ++ sp2) :: bls).
(** the first section and the line that ends it *)
Inductive sources_are : list csource -> list bytes -> Prop :=
| sa_end : sources_are [] [B "---"]
| sa_cons s lines ss rest : source_is s lines -> sources_are ss rest -> sources_are (s :: ss) (lines ++ rest).
(** the last source of that name *)
Fixpoint last_source (n : bytes) (ss : list csource) (found : option csource) : option csource :=
  match ss with [] => found | s :: r => last_source n r (if eqb_bytes n (c_name s) then Some s else found) end.
(** what is read for a source *)
Definition stands_for (s : csource) (r : source) : Prop :=
  so_name r = c_name s /\ so_skip r = Z.to_nat (c_skip s) /\
  forall n, fields_of (so_fields r) n = map cline_field (filter (fun l => eqb_bytes n (cline_name l)) (c_lines s)).
