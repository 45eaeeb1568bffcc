(** When the entries of a database fit together. Said over the entries in the order met (S_Database.v). *)
From Verif Require Import Base M_Amount M_Parser M_Database S_Amount S_Names S_Books S_Database.

(** the accounts there are *)
Definition account_exists (es : list event) (n : bytes) : Prop := needed (map pa_name (ev_accounts es)) n.
(** the declaration that counts for an account: the last one; those of Unbalanced do not *)
Definition declaration (es : list event) (n : bytes) : option paccount :=
  if eqb_bytes n (B "Unbalanced") then None else last_such (fun a => eqb_bytes n (pa_name a)) (ev_accounts es).
(** the commodity an account has: the one of that declaration; without one, the default commodity at the end *)
Definition account_commodity (es : list event) (n : bytes) (c : commodity) : Prop :=
  exists id, known es id = Some c /\
    match declaration es n with
    | Some a => (pa_commodity a <> [] /\ id = pa_commodity a) \/ (pa_commodity a = [] /\ id = default_after es)
    | None => id = default_after es
    end.
(** a posting names an existing account in full; its amounts are in the commodity of that account *)
Definition plain_posting (es : list event) (s : posting) : Prop :=
  account_exists es (ps_account s) /\
  forall c, account_commodity es (ps_account s) c ->
    (forall q, ps_quantity s = Some q -> a_com q = c) /\ (forall b, ps_balance s = Some b -> a_com b = c).
(** a transaction between accounts of one commodity sums to zero or leaves out one quantity;
    among different commodities no quantity is left out *)
Definition complete (es : list event) (t : transaction) : Prop :=
  let ps := t_postings t in
  let one := exists c, forall s, In s ps -> account_commodity es (ps_account s) c in
  (one -> missing ps = 1%nat \/ (missing ps = 0%nat /\ zsum (map a_int (written ps)) = 0)) /\
  (~ one -> missing ps = 0%nat).
Definition plain (es : list event) : Prop := forall t s, In t (map snd (ev_txs es)) -> In s (t_postings t) -> plain_posting es s.
Record consistent (es : list event) : Prop := mkConsistent {
  co_accounts : forall n, account_exists es n -> exists c, account_commodity es n c;
  co_prices : forall p, In p (ev_prices es) -> known es (pp_commodity p) <> None /\ known es (pp_currency p) <> None;
  co_transactions : forall t, In t (map snd (ev_txs es)) -> complete es t }.
