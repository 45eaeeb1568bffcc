(** Specification of the listing commands. *)
From Coq Require Import Sorted Permutation.
From Verif Require Import Base M_Amount M_Convert M_Regex M_Parser M_Names M_Tags M_Ledger M_Listing S_Names.

(** the tags of a transaction and of a posting: those of its notes *)
Definition tx_tags (x : rtx) : tags := parse_tags (x_notes x).
Definition post_tags (L : ledger) (p : nat) : tags := parse_tags (rp_notes (heap L p)).
(** tag [k] has the value [v] somewhere in the transactions *)
Definition tagged (L : ledger) (xs : list rtx) (k v : bytes) : Prop :=
  exists x, In x xs /\ (In (k, v) (tx_tags x) \/ exists p, In p (x_posts x) /\ In (k, v) (post_tags L p)).
(** account [a] is used with tag [k]: by a posting that has the tag, or by any posting of a transaction that has it *)
Definition used_with (L : ledger) (xs : list rtx) (k a : bytes) : Prop :=
  exists x p, In x xs /\ In p (x_posts x) /\ rp_acc (heap L p) = a /\
    (In k (map fst (post_tags L p)) \/ In k (map fst (tx_tags x))).
(** one run over the transactions, each map iterated in some order *)
Definition visits (L : ledger) (xs : list rtx) (vs : list visit) : Prop :=
  Forall2 (fun x v => Permutation (tx_tags x) (v_tags v) /\
    Forall2 (fun p tp => Permutation (post_tags L p) (fst tp) /\ snd tp = rp_acc (heap L p)) (x_posts x) (v_posts v)) xs vs.
Definition ascending (l : list bytes) : Prop := StronglySorted (fun a b => less_bytes a b = true) l.
(** how one name is printed: the name; a colon if it has values; the quoted values with -v; a line per account with -a *)
Definition tag_row (fv fa : bool) (k : bytes) (vals accs : list bytes) : bytes :=
  k ++ (match vals with [] => [] | _ => B ":" end) ++
  (match vals with [] => [] | _ => if fv then B " """ ++ join (B """, """) vals ++ B """" else [] end) ++ [nl] ++
  (if fa then flat_map (fun a => chr 9 :: a ++ [nl]) accs else []).

(** two postings that look the same: same account, quantities equal when compared in the decimals of the first *)
Definition same_posting (L : ledger) (p q : nat) : Prop :=
  rp_acc (heap L p) = rp_acc (heap L q) /\
  exists a b, rp_qty (heap L p) = Some a /\ rp_qty (heap L q) = Some b /\ is_equal a b = Ok true.
Definition same_tx (L : ledger) (x y : rtx) : Prop :=
  x_posted x = x_posted y /\ x_code x = x_code y /\ Forall2 (fun p q => same_posting L q p) (x_posts x) (x_posts y).
(** the pairs of positions i < j whose transactions look the same, ordered by j and then i *)
Definition pairs_before (n : nat) : list (nat * nat) := flat_map (fun j => map (fun i => (i, j)) (seq 0 j)) (seq 0 n).

(** the accounts used with a tag, posting by posting, and without repetitions *)
Definition uses (L : ledger) (xs : list rtx) (k : bytes) : list bytes :=
  flat_map (fun x =>
    flat_map (fun p => if existsb (eqb_bytes k) (map fst (post_tags L p)) then [rp_acc (heap L p)] else []) (x_posts x) ++
    (if existsb (eqb_bytes k) (map fst (tx_tags x)) then map (fun p => rp_acc (heap L p)) (x_posts x) else [])) xs.
Fixpoint firsts (l : list bytes) : list bytes :=
  match l with [] => [] | x :: r => x :: filter (fun y => negb (eqb_bytes y x)) (firsts r) end.
(** a two-posting transaction that moves q1 out as the same number of another commodity *)
Definition bad_conversion (L : ledger) (t : rtx) : Prop :=
  exists p1 p2 q1 q2, x_posts t = [p1; p2] /\ rp_qty (heap L p1) = Some q1 /\ rp_qty (heap L p2) = Some q2 /\
    is_equal q1 (negated q2) = Ok true /\ a_com q1 <> a_com q2.
