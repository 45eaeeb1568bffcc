(** Command lines: options in any of their written forms, then arguments. *)
From Verif Require Import Base S_Decimal.

(** an option of a command: its name, whether it is a switch, which values it takes *)
Record option_def := mkOption { o_name : bytes; o_switch : bool; o_takes : bytes -> Prop }.
Definition name_ok (n : bytes) : Prop := exists c r, n = c :: r /\ c <> "-"%char /\ ~ In "="%char n.
Definition dashes : list bytes := [B "-"; B "--"].
(** -name=value, -name value, and -name for a switch that is turned on *)
Inductive option_text (o : option_def) (value : bytes) : list bytes -> Prop :=
| ot_joined d : In d dashes -> option_text o value [d ++ o_name o ++ B "=" ++ value]
| ot_apart d : In d dashes -> o_switch o = false -> option_text o value [d ++ o_name o; value]
| ot_switch d : In d dashes -> o_switch o = true -> value = B "true" -> option_text o value [d ++ o_name o].
(** the first argument ends the options: it does not begin with a dash (or is one), or comes after -- *)
Inductive ends_options : list bytes -> list bytes -> Prop :=
| eo_none : ends_options [] []
| eo_dash r : ends_options (B "-" :: r) (B "-" :: r)
| eo_plain a r : (forall s, a <> "-"%char :: s) -> ends_options (a :: r) (a :: r)
| eo_marked r : ends_options (B "--" :: r) r.
(** [line] gives the options [given] (name and value, in order) and the arguments [args] *)
Inductive command_line (os : list option_def) : list (bytes * bytes) -> list bytes -> list bytes -> Prop :=
| cl_args line args : ends_options line args -> command_line os [] args line
| cl_option o value text given args line : In o os -> o_takes o value -> option_text o value text -> command_line os given args line ->
    command_line os ((o_name o, value) :: given) args (text ++ line).
(** an option given several times has the last value *)
Definition last_value (given : list (bytes * bytes)) (name value : bytes) : Prop :=
  exists before after, given = before ++ (name, value) :: after /\ ~ In name (map fst after).
(** the value [x] of an option is read from the last text given for it, or is the default *)
Definition option_value {A} (given : list (bytes * bytes)) (name : bytes) (read : bytes -> A -> Prop) (default x : A) : Prop :=
  (exists text, last_value given name text /\ read text x) \/ (~ In name (map fst given) /\ x = default).
(** texts of switches *)
Definition switch_text (s : bytes) (x : bool) : Prop :=
  if x then In s [B "1"; B "t"; B "T"; B "true"; B "TRUE"; B "True"] else In s [B "0"; B "f"; B "F"; B "false"; B "FALSE"; B "False"].
(** texts of whole numbers, without leading zeros *)
Definition number_text (s : bytes) (z : Z) : Prop :=
  exists sign ds, In sign [[]; B "-"; B "+"] /\ digits_ok ds /\ (ds = [0] \/ exists d r, ds = d :: r /\ d <> 0) /\ s = sign ++ map digit_char ds /\
    z = (if eqb_bytes sign (B "-") then - num ds else num ds) /\ fits64 z = true.
