(** What rewriting a transaction file means, said about transactions as they stand in files. *)
From Coq Require Import Sorted.
From Verif Require Import Base M_Amount M_Parser S_Amount S_Ledger S_Books.

(** [s'] is the posting [s] with the full name of its account and with a quantity: the one given, if any *)
Definition completed_posting (find : bytes -> res bytes) (s s' : posting) : Prop :=
  find (ps_account s) = Ok (ps_account s') /\ ps_notes s' = ps_notes s /\ ps_balance s' = ps_balance s /\
  exists q, ps_quantity s' = Some q /\ (forall q', ps_quantity s = Some q' -> q = q').
(** all postings are in accounts of commodity [c] *)
Definition common_commodity (comm : bytes -> commodity) (ps : list posting) (c : commodity) : Prop :=
  ps <> [] /\ forall s, In s ps -> comm (ps_account s) = c.
(** [t'] is [t] with full account names and no missing quantity: date, code, description, notes, balances and given
    quantities are those of [t]; in one commodity at most one quantity was missing, it is minus the sum of the others,
    and all add up to zero; otherwise none was missing *)
Definition completed (find : bytes -> res bytes) (comm : bytes -> commodity) (conv : conversion) (t t' : transaction) : Prop :=
  t_posted t' = t_posted t /\ t_code t' = t_code t /\ t_desc t' = t_desc t /\ t_notes t' = t_notes t /\
  Forall2 (completed_posting find) (t_postings t) (t_postings t') /\
  (forall c, common_commodity comm (t_postings t') c ->
     (missing (t_postings t) <= 1)%nat /\ sums_to_zero conv c (written (t_postings t')) /\
     forall s1 s s2 s1' s' s2', t_postings t = s1 ++ s :: s2 -> t_postings t' = s1' ++ s' :: s2' ->
       List.length s1 = List.length s1' -> ps_quantity s = None ->
       exists sum, add_all conv (zero_amount c) (written (s1 ++ s2)) = Ok sum /\ ps_quantity s' = Some (negated sum)) /\
  ((forall c, ~ common_commodity comm (t_postings t') c) -> missing (t_postings t) = O).

(** the transaction asserts a balance *)
Definition tx_asserts (t : transaction) : bool :=
  existsb (fun s => match ps_balance s with Some _ => true | None => false end) (t_postings t).
(** by date, those of a day asserting balances after the others *)
Definition file_order (ts : list transaction) : Prop :=
  StronglySorted (fun t u => t_posted t < t_posted u \/ (t_posted t = t_posted u /\ (tx_asserts t = true -> tx_asserts u = true))) ts.
(** [ts'] is [ts] brought into that order, moving nothing that need not be moved *)
Definition ordered_version (ts ts' : list transaction) : Prop :=
  file_order ts' /\
  forall d (b : bool), filter (fun t => (t_posted t =? d) && Bool.eqb (tx_asserts t) b) ts' =
                       filter (fun t => (t_posted t =? d) && Bool.eqb (tx_asserts t) b) ts.

(** the words of a line: no white space inside, not empty *)
Definition is_word_text (w : bytes) : Prop := w <> [] /\ Forall (fun c => is_ascii_space c = false) w.
Definition white (s : bytes) : Prop := Forall (fun c => is_ascii_space c = true) s.
(** [s] is the words [ws] with white space between them and possibly around them *)
Inductive spaced : bytes -> list bytes -> Prop :=
| spaced_nil s : white s -> spaced s []
| spaced_last s w s' : white s -> is_word_text w -> white s' -> spaced (s ++ w ++ s') [w]
| spaced_cons s w b r w2 ws : white s -> is_word_text w -> is_ascii_space b = true -> spaced r (w2 :: ws) -> spaced (s ++ w ++ b :: r) (w :: w2 :: ws).

(** on no day does a transaction asserting a balance stand before one that asserts none and shares an account with it *)
Definition assertions_last (find : bytes -> res bytes) (ts : list transaction) : Prop :=
  forall ts1 t ts2 u ts3, ts = ts1 ++ t :: ts2 ++ u :: ts3 -> t_posted t = t_posted u -> tx_asserts t = true -> tx_asserts u = false ->
    forall s s', In s (t_postings t) -> In s' (t_postings u) -> find (ps_account s) <> find (ps_account s').

(** ** modify, said about one transaction as it stands in the file *)
From Verif Require Import M_Tags M_Commands.
(** -p and -tt select the transaction *)
Definition selected (m : modify_cmd) (t : transaction) : Prop :=
  (forall f, m_payee m = Some f -> f (t_desc t) = true) /\
  (forall tm, m_ttag m = Some tm -> tags_match tm (parse_tags (t_notes t)) = true).
(** -a or -pt select the posting *)
Definition hit (m : modify_cmd) (s : posting) : Prop :=
  m_from m = Some (ps_account s) \/ exists tm, m_ptag m = Some tm /\ tags_match tm (parse_tags (ps_notes s)) = true.
(** -a: and -pt: applied to a posting *)
Definition changed_posting (m : modify_cmd) (s : posting) : posting :=
  mkPosting (match m_to m with Some a => a | None => ps_account s end) (ps_quantity s) (ps_balance s)
    (match m_set_ptag m with [] => ps_notes s | line => add_tag_line (ps_notes s) line end).
Definition posting_change (m : modify_cmd) : Prop := m_to m <> None \/ m_set_ptag m <> [].
(** -tt: applies *)
Definition tag_transaction (m : modify_cmd) (t : transaction) : Prop :=
  m_set_ttag m <> [] /\ forall a, m_from m = Some a -> exists s, In s (t_postings t) /\ ps_account s = a.
(** [t'] is what modify makes of [t], [b] whether it is counted as modified: the first selected posting changes *)
Definition modified_to (m : modify_cmd) (t t' : transaction) (b : bool) : Prop :=
  t_posted t' = t_posted t /\ t_code t' = t_code t /\ t_desc t' = t_desc t /\ t_line t' = t_line t /\
  (~ selected m t -> t' = t /\ b = false) /\
  (selected m t ->
     (tag_transaction m t -> t_notes t' = add_tag_line (t_notes t) (m_set_ttag m)) /\
     (~ tag_transaction m t -> t_notes t' = t_notes t) /\
     (b = true -> posting_change m /\ exists s1 s s2, t_postings t = s1 ++ s :: s2 /\ hit m s /\ (forall u, In u s1 -> ~ hit m u) /\
        t_postings t' = s1 ++ changed_posting m s :: s2) /\
     (b = false -> t_postings t' = t_postings t /\ (posting_change m -> forall s, In s (t_postings t) -> ~ hit m s))).
