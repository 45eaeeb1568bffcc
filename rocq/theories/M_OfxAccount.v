(** Model of finding the account of a bank statement. *)
From Verif Require Import Base M_Parser M_Database.

(** coin.go:313-320 FindAccountOfxId; [order]: the iteration order of AccountsByName. Accounts made by the program (coin.go:170-215) have no id *)
Definition find_account_of_ofx_id (d : db) (order : list bytes) (id : bytes) : option bytes :=
  List.find (fun n => eqb_bytes (match account_read d n with Some a => pa_acctid a | None => [] end) id) order.
