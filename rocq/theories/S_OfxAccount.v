(** Which account a bank's account id stands for. *)
From Verif Require Import Base M_Parser M_Database S_Database S_Books S_Consistent S_Lists.

(** the account exists and its (last) definition says "ofx_acctid <id>"; an account without one has the empty id *)
Definition has_ofx_id (es : list event) (n id : bytes) : Prop :=
  account_exists es n /\ match declared es n with Some a => pa_acctid a = id | None => id = [] end.
