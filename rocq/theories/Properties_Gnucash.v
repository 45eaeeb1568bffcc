(** C88-C92: converting GnuCash books (gc2coin). *)
From Coq Require Import Permutation Sorted.
From Verif Require Import Base M_Amount M_Regex M_Date M_Parser M_Writer M_Names M_Ledger M_Files S_Books S_Decimal S_Amount S_Date S_DateText S_Ledger L_Dec L_Amount L_Date L_Sort L_Names
  L_Report L_Entries L_Resolve L_Resolve2 L_Check Properties_Parser M_Gnucash S_Gnucash L_Gnucash L_Gnucash2 L_Gnucash3 L_Gnucash4 L_Gnucash5.

(** sort.Slice may be any sort, for instance the stable one *)
Definition z_sort : forall A, (A -> A -> bool) -> list A -> list A := fun A less l => stable_sort less l.
Example z_sort_sorts : sorts z_sort.
Proof. intros A less l. split; [apply stable_sort_perm|]. intros W. apply (stable_sort_sorted _ _ W). Qed.
Definition z_junk : bytes -> Z := fun _ => 0.

Lemma split_on_nonnil sep s : split_on sep s <> [].
Proof. destruct s as [|c s]; [discriminate|]. cbn [split_on]. destruct (eqc c sep); [discriminate|]. destruct (split_on sep s); discriminate. Qed.

Lemma forall2_in {A C} (R : A -> C -> Prop) l r y : Forall2 R l r -> In y r -> exists x, In x l /\ R x y.
Proof. induction 1 as [|x z l r H F IH]; [intros []|]. intros [<-|I]; [exists x; cbn; auto|]. destruct (IH I) as (x' & I' & H'). exists x'. cbn. auto. Qed.

(** ** C88 amounts *)
(** a fraction with a positive denominator is read as the largest amount of the commodity that is not above it; that is the
    fraction itself if the commodity has enough decimals *)
Theorem C88_amounts_partial : forall junk f n d c, fraction f n d -> 0 < d -> (c_dec c <= 50)%nat ->
  exists a, gnc_amount junk f c = Ok a /\ a_com a = c /\ largest_below n d a /\
    (forall k, n * 10 ^ Z.of_nat (c_dec c) = k * d -> a_int a = k).
Proof.
  intros junk f n d c F D C. destruct (gnc_amount_total junk f n d c F D C) as (a & E). destruct (gnc_amount_com _ _ _ _ E) as (E1 & E2).
  destruct (E2 _ _ F) as (_ & B). exists a. repeat split; auto; try apply B. intros k K. unfold largest_below in B. rewrite E1, K in B. nia.
Qed.
Print Assumptions C88_amounts_partial.
Theorem C88_one_amount : forall n d a b, 0 < d -> a_com a = a_com b -> largest_below n d a -> largest_below n d b -> a = b.
Proof.
  intros n d [x c] [y c'] D E A B. cbn in E. subst c'. unfold largest_below in *. cbn in *. f_equal. nia.
Qed.
Print Assumptions C88_one_amount.
(** any other text than one with one slash, and a denominator of zero, stop the conversion *)
Theorem C88_bad_fractions : forall junk c,
  (forall f, ~ In "/"%char f -> gnc_amount junk f c = Panic) /\
  (forall a b r, gnc_amount junk (a ++ B "/" ++ b ++ B "/" ++ r) c = Panic) /\
  (forall f n, fraction f n 0 -> gnc_amount junk f c = Panic).
Proof.
  intros junk c. split; [|split].
  - intros f H. unfold gnc_amount. rewrite split_none by exact H. reflexivity.
  - intros a b r. unfold gnc_amount. change (a ++ B "/" ++ b ++ B "/" ++ r) with (a ++ "/"%char :: b ++ "/"%char :: r). rewrite !split_app.
    assert (N : forall l : list bytes, (3 <= List.length l)%nat -> match l with [n; d] => if set_string junk d <=? 0 then Panic else new_amount_frac (set_string junk n) (set_string junk d) c | _ => Panic end = Panic) by (intros [|? [|? [|? ?]]]; cbn [List.length]; intros; try reflexivity; lia).
    apply N. rewrite !app_length. pose proof (split_on_nonnil "/"%char a). pose proof (split_on_nonnil "/"%char b). pose proof (split_on_nonnil "/"%char r).
    destruct (split_on "/"%char a), (split_on "/"%char b), (split_on "/"%char r); try congruence; cbn [List.length]; lia.
  - intros f n F. destruct (fraction_split _ _ _ F) as (a & b & E & V). unfold gnc_amount. rewrite E. destruct (V junk) as (_ & Vb). rewrite Vb. reflexivity.
Qed.
Print Assumptions C88_bad_fractions.
Example C88_example : gnc_amount z_junk (B "-1234/100") xCAD = Ok (xcad (-1234)) /\ fraction (B "-1234/100") (-1234) 100 /\
  gnc_amount z_junk (B "1/3") xCAD = Ok (xcad 33) /\ gnc_amount z_junk (B "-1/3") xCAD = Ok (xcad (-34)).
Proof.
  repeat split; try (vm_compute; reflexivity). exists true, [1; 2; 3; 4], [1; 0; 0]. repeat split; try discriminate; try (repeat constructor; lia).
Qed.
(** in full the property fails: GnuCash writes no fraction for the currencies of ISO 4217 (gnucash/commodity.go:12-14), these get
    no decimals, and 1.50 becomes 1 on one side and -2 on the other *)
Definition z_acct g n t p := mkGAccount (B g) (B n) (B t) (B "CAD") (B p) [] [] [].
Definition z_accounts : list gaccount := [z_acct "r" "Root Account" "ROOT" ""; z_acct "a" "Assets" "ASSET" "r"; z_acct "b" "My Bank" "BANK" "a"; z_acct "e" "Food" "EXPENSE" "r"].
Definition z_book (frac : Z) : book := mkBook z_accounts [mkGCommodity (B "CAD") [] [] frac] []
  [mkGTrans (B "12") (B "2011-09-15 06:59:00 -0400") (B "Store - lunch") [mkGSplit (B "e") [] (B "150/100"); mkGSplit (B "b") (B "card") (B "-150/100")]].
Definition z_conv : conversion := fun _ _ _ => Fail.
Definition z_amounts (r : res converted) : list (option Z) :=
  match r with Ok c => map (fun p => option_map a_int (rp_qty (heap (cv_ledger c) p))) (flat_map g_posts (cv_trans c)) | _ => [] end.
Theorem C88_no_fraction_refuted :
  z_amounts (resolve_book z_junk z_sort z_conv [B "a"; B "b"; B "e"; B "r"] (z_book 0)) = [Some 1; Some (-2)] /\
  z_amounts (resolve_book z_junk z_sort z_conv [B "a"; B "b"; B "e"; B "r"] (z_book 100)) = [Some 150; Some (-150)].
Proof. split; vm_compute; reflexivity. Qed.
Print Assumptions C88_no_fraction_refuted.
(** and a numerator that is not a number is taken for some number *)
Theorem C88_bad_numerator_refuted : forall junk, exists a, gnc_amount junk (B "12x/100") xCAD = Ok a.
Proof. intros junk. eexists. unfold gnc_amount. cbn -[new_amount_frac]. unfold new_amount_frac. cbn. reflexivity. Qed.
Print Assumptions C88_bad_numerator_refuted.

(** ** C89 accounts *)
(** every account keeps its place in the tree: its full name is that of its parents and its own, without blanks; and its commodity,
    description and online id *)
Theorem C89_accounts_partial : forall cs l acs, resolve_gaccounts cs l = Ok acs -> Forall2 (converted_account cs l) l acs.
Proof.
  intros cs l acs H. apply resolve_gaccounts_sound in H. revert H.
  assert (G : forall l0, Forall2 (account_is cs l) l0 acs -> Forall2 (converted_account cs l) l0 acs); [|apply G].
  intros l0 H. induction H as [|a c l' acs' (H1 & H2 & H3 & H4 & H5) H IH]; constructor; auto.
  repeat split; auto. exact (proj1 (online_ids_spec a _) H5).
Qed.
Print Assumptions C89_accounts_partial.
(** there is only one way to an account, and one reading of an online id *)
Theorem C89_one_name : forall l a ns ns', NoDup (map ga_guid l) -> path l a ns -> path l a ns' -> ns = ns'.
Proof. intros l a ns ns' N P P'. exact (path_det l N a ns P ns' P'). Qed.
Print Assumptions C89_one_name.
Theorem C89_one_online_id : forall v b a b' a', online v b a -> online v b' a' -> b = b' /\ a = a'.
Proof. exact online_det. Qed.
Print Assumptions C89_one_online_id.
(** which accounts are accepted *)
Theorem C89_accepted : forall cs l, NoDup (map ga_guid l) ->
  (forall a, In a l -> ga_guid a <> [] /\ (exists ns, path l a ns) /\ (ga_parent a = [] \/ exists p, is_parent l p a) /\
     (exists b n, online (slot (B "online_id") (ga_slots a)) b n) /\
     exists g, In g cs /\ gc_id g = (if eqb_bytes (ga_commodity a) [] then B "CAD" else ga_commodity a)) ->
  exists acs, resolve_gaccounts cs l = Ok acs.
Proof.
  intros cs l N H. apply resolve_gaccounts_complete; [exact N|]. intros a A. destruct (H a A) as (H1 & H2 & H3 & (b & n & H4) & H5). repeat split; auto. exists (b, n). apply online_ids_spec. exact H4.
Qed.
Print Assumptions C89_accepted.
(** an account without a way to the root (parents in a circle, a parent that is not in the book), one of an unknown commodity and one
    with an online id without a digit stop the conversion *)
Theorem C89_not_accepted : forall cs l a, In a l ->
  (forall ns, ~ path l a ns) \/ (forall g, In g cs -> gc_id g <> if eqb_bytes (ga_commodity a) [] then B "CAD" else ga_commodity a) \/
  (slot (B "online_id") (ga_slots a) <> [] /\ forall c, In c (slot (B "online_id") (ga_slots a)) -> is_digit c = false) ->
  forall acs, resolve_gaccounts cs l <> Ok acs.
Proof.
  intros cs l a A H acs E. apply resolve_gaccounts_sound in E. assert (X : exists c, account_is cs l a c).
  { clear -A E. assert (G : forall l0, Forall2 (account_is cs l) l0 acs -> In a l0 -> exists c, account_is cs l a c); [|exact (G l E A)]. clear.
    intros l0 H. induction H as [|x c l' acs' Hx H IH]; [intros []|]. intros [->|A]; [eauto|apply IH, A]. }
  destruct X as (c & _ & (ns & P & _) & (g & G1 & G2 & _) & _ & O1). destruct H as [H|[H|(H1 & H2)]].
  - apply (H ns P).
  - apply (H g G1 G2).
  - rewrite online_ids_none in O1; [discriminate| |exact H2]. destruct (slot (B "online_id") (ga_slots a)) as [|x v]; [congruence|]. exists x. left. reflexivity.
Qed.
Print Assumptions C89_not_accepted.
(** accounts.coin has all accounts, by name, however the map of accounts is gone through *)
Theorem C89_all_accounts : forall acs order, Permutation acs order -> NoDup (map ca_name acs) ->
  exists l, account_items order = map (fun a => IAccount (account_item a)) l /\ Permutation l acs /\ map ca_name l = sort_strings (map ca_name acs).
Proof.
  intros acs order P N. assert (No : NoDup (map ca_name order)) by (eapply Permutation_NoDup; [apply Permutation_map, P|exact N]).
  destruct (account_items_map order) as (l & E & En & In_). exists l. rewrite nodup_fixed_point in En by exact No.
  assert (Pn : Permutation (map ca_name order) (map ca_name l)) by (rewrite En; apply sort_strings_perm).
  split; [exact E|]. split.
  - apply (Permutation_trans (l' := order)); [|apply Permutation_sym, P].
    apply NoDup_Permutation_bis.
    + apply (NoDup_map_inv ca_name). eapply Permutation_NoDup; [exact Pn|exact No].
    + apply Permutation_length in Pn. rewrite !map_length in Pn. lia.
    + intros a. apply In_.
  - rewrite En. apply sort_strings_unique. apply Permutation_map, Permutation_sym, P.
Qed.
Print Assumptions C89_all_accounts.
Theorem C89_any_order : forall order order', Permutation order order' -> NoDup (map ca_name order) -> account_items order = account_items order'.
Proof.
  intros o o' P N. assert (N' : NoDup (map ca_name o')) by (eapply Permutation_NoDup; [apply Permutation_map, P|exact N]).
  unfold account_items. rewrite !nodup_fixed_point by assumption.
  replace (sort_strings (map ca_name o')) with (sort_strings (map ca_name o)).
  - apply flat_map_ext. intros n. destruct (account_named o n) as [a|] eqn:E.
    + apply account_named_sound in E as (E & <-). rewrite (account_named_unique o' a N'); [reflexivity|]. apply (Permutation_in _ P E).
    + destruct (account_named o' n) as [a|] eqn:E'; [|reflexivity]. apply account_named_sound in E' as (E' & <-). rewrite (account_named_unique o a N) in E; [discriminate|]. apply (Permutation_in _ (Permutation_sym P) E').
  - apply sort_strings_unique. apply Permutation_map, P.
Qed.
Print Assumptions C89_any_order.
Definition z_cs : list gcommodity := [mkGCommodity (B "CAD") [] [] 100].
Example C89_example : option_map (map (fun c => (ca_guid c, ca_name c))) (match resolve_gaccounts z_cs z_accounts with Ok x => Some x | _ => None end) =
    Some [(B "r", B "Root"); (B "a", B "Assets"); (B "b", B "Assets:MyBank"); (B "e", B "Food")] /\
  online (B "123 45-6") (B "123") (B "45") /\ online (B "id:77") [] (B "77").
Proof.
  split; [vm_compute; reflexivity|]. split.
  - right. right. exists [], (B " 45-6"), (B " "), (B "45-6"), (B "-6"). repeat split; try discriminate; reflexivity.
  - right. left. exists (B "id:"), []. repeat split; try discriminate; try reflexivity. intros [|? ?] y E N; [congruence|discriminate].
Qed.
(** in full the property fails: "A B" and "AB" get the same name, one of them is lost, and chance says which *)
Theorem C89_blanks_refuted : exists acs, resolve_gaccounts z_cs [z_acct "r" "Root Account" "ROOT" ""; z_acct "1" "A B" "BANK" "r"; mkGAccount (B "2") (B "AB") (B "BANK") (B "CAD") (B "r") [] (B "other") []] = Ok acs /\
  List.length (account_items acs) = 2%nat /\ Permutation acs (rev acs) /\ account_items acs <> account_items (rev acs).
Proof.
  eexists. split; [vm_compute; reflexivity|]. split; [vm_compute; reflexivity|]. split; [apply Permutation_rev|]. vm_compute. discriminate.
Qed.
Print Assumptions C89_blanks_refuted.
(** and a book whose root has no commodity (as GnuCash writes them) needs the currency CAD, whichever currencies it uses *)
Theorem C89_cad_refuted : forall cs l a, In a l -> ga_commodity a = [] -> (forall g, In g cs -> gc_id g <> B "CAD") -> forall acs, resolve_gaccounts cs l <> Ok acs.
Proof. intros cs l a A C H. apply (C89_not_accepted cs l a A). right. left. rewrite C. exact H. Qed.
Print Assumptions C89_cad_refuted.

(** ** C90 transactions and registers *)
(** the transactions are those of the book with their times, numbers, descriptions, accounts, amounts and notes, in the order of their times; the
    register of every account has its postings, in the order of their times, with the balance after each *)
Theorem C90_transactions : forall junk ssort conv order b c, sorts ssort -> NoDup (map ga_guid (bk_accounts b)) -> Permutation order (map ga_guid (bk_accounts b)) ->
  resolve_book junk ssort conv order b = Ok c ->
  exists ys, Permutation ys (cv_trans c) /\ Forall2 (transaction_from (cv_accounts c) (cv_ledger c)) (bk_trans b) ys /\ by_time (cv_trans c) /\
    forall a, In a (cv_accounts c) ->
      Permutation (postings_to (cv_ledger c) (ca_guid a) ys) (reg (cv_ledger c) (ca_guid a)) /\
      in_date_order (dates (cv_ledger c)) (reg (cv_ledger c) (ca_guid a)) /\
      forall l1 p l2, reg (cv_ledger c) (ca_guid a) = l1 ++ p :: l2 ->
        rp_bal (heap (cv_ledger c) p) = Some (mkAmount (zsum (map a_int (quantities (cv_ledger c) (l1 ++ [p])))) (ca_commodity a)).
Proof.
  intros junk ssort conv order b c SS N P H. unfold resolve_book in H. apply bind_ok in H as (ps & _ & H). apply bind_ok in H as (acs & Ha & H). apply bind_ok in H as ([L xs] & Hx & H).
  injection H as <-. cbn [cv_accounts cv_ledger cv_trans fst snd]. assert (No : NoDup order) by (eapply Permutation_NoDup; [apply Permutation_sym, P|exact N]).
  destruct (resolve_spec junk acs ssort SS conv order _ _ _ No Hx) as (ys & Y1 & Y2 & Y3 & Y4). exists ys. split; [exact Y1|]. split; [exact Y2|]. split; [exact Y3|].
  pose proof (resolve_gaccounts_sound _ _ _ Ha) as F. assert (G : map ca_guid acs = map ga_guid (bk_accounts b)).
  { clear -F. revert F. generalize (bk_accounts b) at 2 3. intros l F. induction F as [|x y l' r (E & _) F IH]; cbn; [reflexivity|]. rewrite E, IH. reflexivity. }
  intros a A. destruct (Y4 (ca_guid a)) as (R1 & R2 & R3). { apply (Permutation_in _ (Permutation_sym P)). rewrite <- G. apply in_map, A. }
  split; [exact R1|]. split; [exact R2|]. intros l1 p l2 E. rewrite (R3 _ _ _ E). f_equal. unfold sum_to. f_equal.
  unfold commodity_of. replace (account_of acs (ca_guid a)) with (Some a); [reflexivity|]. symmetry. rewrite <- G in N. clear -N A. unfold account_of. induction acs as [|x acs IH]; [destruct A|].
  cbn [map] in N. inversion N as [|? ? Nx Nr]; subst. cbn [find]. destruct A as [->|A]; [rewrite eqb_bytes_refl; reflexivity|]. destruct (eqb_bytes (ca_guid x) (ca_guid a)) eqn:E; [|apply IH; assumption].
  apply eqb_bytes_eq in E. exfalso. apply Nx. rewrite E. apply in_map, A.
Qed.
Print Assumptions C90_transactions.
(** which books are accepted *)
Theorem C90_accepted : forall junk ssort conv order b, sorts ssort -> NoDup (map ga_guid (bk_accounts b)) -> Permutation order (map ga_guid (bk_accounts b)) ->
  (exists acs, resolve_gaccounts (bk_commodities b) (bk_accounts b) = Ok acs) ->
  (forall g, In g (bk_commodities b) -> exists k, 0 <= k <= 18 /\ gc_fraction g = 10 ^ k) ->
  (forall p, In p (bk_prices b) -> (exists m, moment_ok m /\ gp_date p = moment_text m) /\ (exists n d, fraction (gp_value p) n d /\ 0 < d) /\
     (exists g, In g (bk_commodities b) /\ gc_id g = gp_commodity p) /\ exists g, In g (bk_commodities b) /\ gc_id g = gp_currency p) ->
  (forall t, In t (bk_trans b) -> (exists m, moment_ok m /\ gt_posted t = moment_text m) /\
     forall s, In s (gt_splits t) -> In (gs_account s) (map ga_guid (bk_accounts b)) /\ exists n d, fraction (gs_quantity s) n d /\ 0 < d) ->
  exists c, resolve_book junk ssort conv order b = Ok c.
Proof.
  intros junk ssort conv order b SS N P (acs & Ha) Hc Hp Ht. unfold resolve_book.
  assert (D : forall id c, book_commodity (bk_commodities b) id c -> (c_dec c <= 50)%nat).
  { intros id c (g & G & _ & _ & E). destruct (Hc g G) as (k & K & Ek). specialize (E k K Ek). lia. }
  assert (Tp : exists ps, resolve_prices junk ssort (bk_commodities b) (bk_prices b) = Ok ps).
  { unfold resolve_prices. destruct (res_map_total (price_from junk (bk_commodities b)) (bk_prices b)) as (r & Er); [|rewrite Er; cbn; eauto].
    intros p I. destruct (Hp p I) as ((m & M & Em) & (n & d & F & Fd) & G1 & G2). unfold price_from.
    destruct (find_commodity_complete _ _ G2) as (cur & Ec). rewrite Ec. destruct (gnc_amount_total junk _ n d cur F Fd (D _ _ (find_commodity_sound _ _ _ Ec))) as (v & Ev). rewrite Ev. cbn [bind].
    rewrite Em. destruct (stamp_complete m M) as (t & Et). rewrite Et. cbn [bind]. destruct (find_commodity_complete _ _ G1) as (c & Ec'). rewrite Ec'. eauto. }
  destruct Tp as (ps & Ep). rewrite Ep, Ha. cbn [bind].
  assert (No : NoDup order) by (eapply Permutation_NoDup; [apply Permutation_sym, P|exact N]).
  pose proof (resolve_gaccounts_sound _ _ _ Ha) as F. assert (G : map ca_guid acs = map ga_guid (bk_accounts b) /\ forall a, In a acs -> (c_dec (ca_commodity a) <= 50)%nat).
  { clear -F D. revert F. generalize (bk_accounts b) at 2 3. intros l F. induction F as [|x y l' r (E & _ & C & _) F IH]; [split; [reflexivity|intros a []]|].
    destruct IH as (IH1 & IH2). cbn. rewrite E, IH1. split; [reflexivity|]. intros a [<-|A]; [apply (D _ _ C)|apply IH2, A]. }
  destruct G as (G & Gd). destruct (resolve_total junk acs ssort SS conv order (bk_trans b) No) as (L & xs & E); [|exact Gd|rewrite E; cbn; eauto].
  intros t T. destruct (Ht t T) as (M & S). split; [exact M|]. intros s I. destruct (S s I) as (A & Q). split; [|exact Q]. rewrite <- G in A. apply in_map_iff in A as (a & E & A). eauto.
Qed.
Print Assumptions C90_accepted.
(** a transaction that balances in the book in one commodity, with amounts that the commodity can express, balances *)
Theorem C90_balanced : forall acs L t x c ks, transaction_from acs L t x -> NoDup (map ca_guid acs) ->
  (forall s a, In s (gt_splits t) -> In a acs -> ca_guid a = gs_account s -> ca_commodity a = c) ->
  Forall2 (fun s k => exists n d, fraction (gs_quantity s) n d /\ n * 10 ^ Z.of_nat (c_dec c) = k * d) (gt_splits t) ks -> zsum ks = 0 ->
  zsum (map a_int (quantities L (g_posts x))) = 0.
Proof.
  intros acs L t x c ks (_ & _ & _ & F) N C K Z. rewrite <- Z. clear Z. revert ks K. induction F as [|s p ss ps Hp F IH]; intros ks K; inversion K as [|? k ? ks' (n & d & Fr & Ek) K']; subst; [reflexivity|].
  destruct Hp as (_ & _ & _ & _ & a & q & A & G & Q & Cq & Hq). unfold quantities. cbn [flat_map]. rewrite Q. cbn [app map zsum fold_right].
  specialize (IH (fun s' a' I => C s' a' (or_intror I)) ks' K'). unfold quantities in IH. 
  destruct (Hq n d Fr) as (Pd & Bd). pose proof (C s a (or_introl eq_refl) A G) as Ec. unfold largest_below in Bd. rewrite Cq, Ec in Bd.
  assert (a_int q = k) by (clear -Bd Ek Pd; nia). subst k. unfold zsum in *. cbn [fold_right] in *. rewrite IH. reflexivity.
Qed.
Print Assumptions C90_balanced.
(** what is written does not depend on the order in which the map of accounts is gone through *)
Theorem C90_any_order : forall junk ssort conv order order' b c c', sorts ssort -> NoDup order -> NoDup order' ->
  resolve_book junk ssort conv order b = Ok c -> resolve_book junk ssort conv order' b = Ok c' ->
  cv_prices c = cv_prices c' /\ cv_accounts c = cv_accounts c' /\
  map (trans_item (cv_accounts c) (cv_ledger c)) (cv_trans c) = map (trans_item (cv_accounts c') (cv_ledger c')) (cv_trans c') /\ map g_time (cv_trans c) = map g_time (cv_trans c').
Proof.
  intros junk ssort conv o o' b c c' SS N N' H H'. unfold resolve_book in H, H'. apply bind_ok in H as (ps & Hp & H). apply bind_ok in H as (acs & Ha & H). apply bind_ok in H as ([L xs] & Hx & H). injection H as <-.
  rewrite Hp in H'. cbn [bind] in H'. rewrite Ha in H'. cbn [bind] in H'. apply bind_ok in H' as ([L' xs'] & Hx' & H'). injection H' as <-. cbn [cv_prices cv_accounts cv_ledger cv_trans fst snd].
  destruct (resolve_keeps junk acs ssort SS conv o _ _ _ N Hx) as (L0 & ys & E & K & ->). destruct (resolve_keeps junk acs ssort SS conv o' _ _ _ N' Hx') as (L0' & ys' & E' & K' & ->).
  rewrite E in E'. injection E' as <- <-. split; [reflexivity|]. split; [reflexivity|]. split; [|reflexivity]. apply map_ext. intros x. unfold trans_item. f_equal. apply map_ext. intros p.
  destruct (K p) as (_ & _ & -> & -> & _ & -> & _), (K' p) as (_ & _ & -> & -> & _ & -> & _). reflexivity.
Qed.
Print Assumptions C90_any_order.
Definition z_order : list bytes := [B "e"; B "b"; B "a"; B "r"].
Definition z_out (r : res converted) : res (list transaction * list (option Z)) :=
  match r with Ok c => Ok (map (trans_item (cv_accounts c) (cv_ledger c)) (cv_trans c), map (fun p => option_map a_int (rp_bal (heap (cv_ledger c) p))) (reg (cv_ledger c) (B "b"))) | Fail => Fail | Panic => Panic end.
Definition z_two : book := mkBook z_accounts z_cs []
  [mkGTrans (B "13") (B "2011-09-16 00:30:00 +0200") (B "Dinner") [mkGSplit (B "e") [] (B "20/1"); mkGSplit (B "b") [] (B "-20/1")];
   mkGTrans (B "12") (B "2011-09-15 06:59:00 -0400") (B "Store - lunch") [mkGSplit (B "e") [] (B "150/100"); mkGSplit (B "b") (B "card") (B "-150/100")]].
Definition z_amt (n : Z) : amount := mkAmount n (mkCommodity 0 (B "CAD") 2).
Example C90_example : z_out (resolve_book z_junk z_sort z_conv z_order z_two) =
  Ok ([mkTransaction (go_date 2011 9 15) (B "12") (B "Store") [B "lunch"] [mkPosting (B "Food") (Some (z_amt 150)) None []; mkPosting (B "Assets:MyBank") (Some (z_amt (-150))) None [B "card"]] 0;
       mkTransaction (go_date 2011 9 16) (B "13") (B "Dinner") [] [mkPosting (B "Food") (Some (z_amt 2000)) None []; mkPosting (B "Assets:MyBank") (Some (z_amt (-2000))) None []] 0],
      [Some (-150); Some (-2150)]) /\ Permutation z_order (map ga_guid z_accounts) /\ NoDup (map ga_guid z_accounts).
Proof.
  split; [vm_compute; reflexivity|]. split; [|repeat constructor; cbn; intuition discriminate].
  apply (Permutation_rev z_order).
Qed.

(** the same for the prices *)
Theorem C90_prices : forall junk ssort conv order b c, sorts ssort -> resolve_book junk ssort conv order b = Ok c ->
  exists ps, Permutation ps (cv_prices c) /\ Forall2 (converted_price (bk_commodities b)) (bk_prices b) ps /\
    StronglySorted (fun p q => instant (cp_time p) <= instant (cp_time q)) (cv_prices c).
Proof.
  intros junk ssort conv order b c SS H. unfold resolve_book in H. apply bind_ok in H as (ps & Hp & H). apply bind_ok in H as (acs & Ha & H). apply bind_ok in H as (Lx & Hx & H).
  injection H as <-. cbn [cv_prices]. unfold resolve_prices in Hp. apply bind_ok in Hp as (l & Hl & Hp). injection Hp as <-. exists l.
  destruct (SS _ (fun p q => instant (cp_time p) <? instant (cp_time q)) l) as (P & S). split; [exact P|]. split.
  - apply res_map_forall2 in Hl. clear -Hl. induction Hl as [|p c ps l H _ IH]; constructor; [|exact IH]. unfold price_from in H.
    destruct (find_commodity_at (bk_commodities b) (gp_currency p)) as [cur|] eqn:E1; [|discriminate]. apply bind_ok in H as (v & Hv & H). apply bind_ok in H as (t & Ht & H).
    destruct (find_commodity_at (bk_commodities b) (gp_commodity p)) as [co|] eqn:E2; [|discriminate]. injection H as <-. apply gnc_amount_com in Hv as (C & V).
    split; [apply stamp_sound, Ht|]. split; [apply find_commodity_sound, E2|]. cbn [cp_value]. split; [rewrite C; apply find_commodity_sound, E1|exact V].
  - specialize (S (ltb_weak _)). unfold sorted_by in S. clear -S. induction S as [|p l' Hs IH Hf]; constructor; [exact IH|]. eapply Forall_impl; [|exact Hf]. cbn. intros. lia.
Qed.
Print Assumptions C90_prices.

(** ** C91 what is written is read back *)
(** without -y there are four files; if every entry can be written in the ledger format, reading them gives the entries *)
Theorem C91_read_back_partial : forall e acc_dec by_name cs F c,
  Forall (item_ok e) (commodity_items cs) -> Forall (item_ok e) (price_items (cv_prices c)) -> Forall (item_ok e) (account_items (by_name (cv_accounts c))) ->
  Forall (item_ok e) (trans_items c (cv_trans c)) ->
  exists F', gc2coin false acc_dec by_name cs F c = Ok F' /\
    (forall f is_, In (f, is_) [(B "commodities.coin", commodity_items cs); (B "prices.coin", price_items (cv_prices c));
                                (B "accounts.coin", account_items (by_name (cv_accounts c))); (B "transactions.coin", trans_items c (cv_trans c))] ->
       exists text js, F' f = Some text /\ read_text e text = Ok js /\ Forall2 same_item is_ js) /\
    forall f, ~ In f [B "commodities.coin"; B "prices.coin"; B "accounts.coin"; B "transactions.coin"] -> F' f = F f.
Proof.
  intros e acc_dec by_name cs F c H1 H2 H3 H4.
  assert (W : forall is_, Forall (item_ok e) is_ -> exists l, res_map (item_text acc_dec) is_ = Ok l).
  { intros is_ H. destruct (C21_ledger_round_trip e acc_dec is_ H) as (text & js & E & _). rewrite write_items_eq in E. destruct (res_map (item_text acc_dec) is_); try discriminate. eauto. }
  assert (T : forall A (yr : A -> Z) (it : A -> item) l, (exists r, res_map (item_text acc_dec) (map it l) = Ok r) -> exists r, res_map (fun x => do t <- item_text acc_dec (it x); Ok (yr x, t)) l = Ok r).
  { intros A yr it l. induction l as [|x l IH]; intros (r & E); [exists []; reflexivity|]. cbn [map res_map] in E |- *. destruct (item_text acc_dec (it x)) as [t| |]; cbn [bind] in *; try discriminate.
    destruct (res_map (item_text acc_dec) (map it l)) as [r'| |] eqn:E'; cbn [bind] in *; try discriminate. destruct (IH (ex_intro _ r' eq_refl)) as (r'' & ->). cbn. eauto. }
  assert (X : exists F', gc2coin false acc_dec by_name cs F c = Ok F').
  { unfold gc2coin. destruct (W _ H1) as (l1 & ->). cbn [bind]. destruct (T _ (fun p => year_of (st_day (cp_time p))) (fun p => IPrice (price_item p)) (cv_prices c) (W _ H2)) as (l2 & ->). cbn [bind].
    destruct (W _ H3) as (l3 & ->). cbn [bind]. destruct (T _ (fun x => year_of (st_day (g_time x))) (fun x => ITransaction (trans_item (cv_accounts c) (cv_ledger c) x)) (cv_trans c) (W _ H4)) as (l4 & ->). cbn. eauto. }
  destruct X as (F' & X). exists F'. split; [exact X|]. destruct (gc2coin_single _ _ _ _ _ _ X) as (A1 & A2 & A3 & A4 & A5). split; [|exact A5].
  assert (R : forall f is_, Forall (item_ok e) is_ -> holds acc_dec F' f is_ -> exists text js, F' f = Some text /\ read_text e text = Ok js /\ Forall2 same_item is_ js).
  { intros f is_ Ok_ (text & E & Et). destruct (C21_ledger_round_trip e acc_dec is_ Ok_) as (text' & js & E1 & E2 & E3). rewrite Et in E1. injection E1 as <-. eauto. }
  intros f is_ [E|[E|[E|[E|[]]]]]; apply (f_equal (fun x => (fst x, snd x))) in E; cbn [fst snd] in E; injection E as <- <-; apply R; assumption.
Qed.
Print Assumptions C91_read_back_partial.
Theorem C91_files : forall acc_dec by_name cs F c F', gc2coin false acc_dec by_name cs F c = Ok F' ->
  holds acc_dec F' (B "commodities.coin") (commodity_items cs) /\ holds acc_dec F' (B "prices.coin") (price_items (cv_prices c)) /\
  holds acc_dec F' (B "accounts.coin") (account_items (by_name (cv_accounts c))) /\ holds acc_dec F' (B "transactions.coin") (trans_items c (cv_trans c)) /\
  forall f, ~ In f [B "commodities.coin"; B "prices.coin"; B "accounts.coin"; B "transactions.coin"] -> F' f = F f.
Proof. exact gc2coin_single. Qed.
Print Assumptions C91_files.
(** and these entries are those of the book: *)
Lemma forall2_map_r {A C D} (R : A -> D -> Prop) (Q : A -> C -> Prop) (f : C -> D) l r : (forall x y, Q x y -> R x (f y)) -> Forall2 Q l r -> Forall2 R l (map f r).
Proof. intros H F. induction F; constructor; auto. Qed.
Theorem C91_prices : forall junk ssort conv order b c, sorts ssort -> resolve_book junk ssort conv order b = Ok c ->
  exists is_, Forall2 (price_entry (bk_commodities b)) (bk_prices b) is_ /\ Permutation (map IPrice is_) (price_items (cv_prices c)).
Proof.
  intros junk ssort conv order b c SS H. destruct (C90_prices _ _ _ _ _ _ SS H) as (ps & P1 & P2 & _). exists (map price_item ps). split.
  - eapply forall2_map_r; [|exact P2]. intros p x ((m & M & E & D & _) & (g & _ & _ & G & _) & (g' & G0 & G1 & G2 & G3) & V). unfold price_entry, price_item. cbn [pp_time pp_commodity pp_currency pp_value].
    split; [exists m; auto|]. split; [exact G|]. split; [exact G2|]. split; [exists g'; auto|exact V].
  - unfold price_items. rewrite map_map. apply Permutation_map, P1.
Qed.
Print Assumptions C91_prices.
Theorem C91_accounts : forall cs l acs, resolve_gaccounts cs l = Ok acs -> Forall2 (account_entry l) l (map account_item acs).
Proof.
  intros cs l acs H. apply C89_accounts_partial in H. assert (G : forall l0, incl l0 l -> Forall2 (converted_account cs l) l0 acs -> Forall2 (account_entry l) l0 (map account_item acs)); [|apply G; [apply incl_refl|exact H]].
  clear H. intros l0 I F. induction F as [|a c l' r (H1 & (ns & H2 & H2') & (g & _ & _ & H3 & _) & H4 & H5) F IH]; cbn [map]; constructor; [|apply IH; intros x X; apply I; right; exact X].
  unfold account_entry, account_item. cbn [pa_name pa_desc pa_commodity pa_closed pa_csvid pa_bankid pa_acctid]. repeat split; auto. exists a, ns. repeat split; auto. apply I. left. reflexivity.
Qed.
Print Assumptions C91_accounts.
Theorem C91_transactions : forall junk ssort conv order b c, sorts ssort -> NoDup (map ga_guid (bk_accounts b)) -> Permutation order (map ga_guid (bk_accounts b)) ->
  resolve_book junk ssort conv order b = Ok c ->
  exists is_, Forall2 (trans_entry b) (bk_trans b) is_ /\ Permutation (map ITransaction is_) (trans_items c (cv_trans c)).
Proof.
  intros junk ssort conv order b c SS N P H. destruct (C90_transactions _ _ _ _ _ _ SS N P H) as (ys & Y1 & Y2 & _). exists (map (trans_item (cv_accounts c) (cv_ledger c)) ys). split.
  2:{ unfold trans_items. rewrite map_map. apply Permutation_map, Y1. }
  unfold resolve_book in H. apply bind_ok in H as (ps & _ & H). apply bind_ok in H as (acs & Ha & H). apply bind_ok in H as (Lx & _ & H). injection H as <-. cbn [cv_accounts cv_ledger] in *.
  apply C89_accounts_partial in Ha. assert (G : map ca_guid acs = map ga_guid (bk_accounts b)).
  { clear -Ha. revert Ha. generalize (bk_accounts b) at 2 3. intros l F. induction F as [|x y l' r (E & _) F IH]; cbn; [reflexivity|]. rewrite E, IH. reflexivity. }
  eapply forall2_map_r; [|exact Y2]. intros t x ((m & M & E & D & _) & C & Ds & F). unfold trans_entry, trans_item. cbn [t_posted t_code t_desc t_notes t_postings].
  split; [exists m; auto|]. split; [exact C|]. split; [exact Ds|]. eapply forall2_map_r; [|exact F]. intros s p (_ & Ac & Me & _ & a & q & A & Ga & Q & Cq & V). cbn [ps_account ps_quantity ps_balance ps_notes].
  destruct (forall2_in _ _ _ _ Ha A) as (g & Ig & Gg & (ns & Pg & Ng) & Cg & _).
  unfold split_entry. cbn [ps_account ps_quantity ps_balance ps_notes].
  assert (Na : name_of acs (rp_acc (heap (fst Lx) p)) = ca_name a).
  { rewrite Ac, <- Ga. unfold name_of. replace (account_of acs (ca_guid a)) with (Some a); [reflexivity|]. symmetry. rewrite <- G in N. clear -N A. unfold account_of. induction acs as [|x acs IH]; [destruct A|].
    cbn [map] in N. inversion N as [|? ? Nx Nr]; subst. cbn [find]. destruct A as [->|A]; [rewrite eqb_bytes_refl; reflexivity|]. destruct (eqb_bytes (ca_guid x) (ca_guid a)) eqn:E; [|apply IH; assumption].
    apply eqb_bytes_eq in E. exfalso. apply Nx. rewrite E. apply in_map, A. }
  split; [rewrite Na; exists g, ns; repeat split; congruence|]. split; [reflexivity|]. split; [exact Me|].
  exists q, g. split; [exact Q|]. split; [exact Ig|]. split; [congruence|]. split; [rewrite Cq; exact Cg|exact V].
Qed.
Print Assumptions C91_transactions.
(** commodities.coin has the commodities of the book by id, but not those called "template" *)
Theorem C91_commodities : forall cs, NoDup (map gc_id cs) ->
  exists l is_, Forall2 commodity_entry l is_ /\ commodity_items cs = map ICommodity is_ /\
    Permutation l (filter (fun g => negb (eqb_bytes (gc_name g) (B "template"))) cs) /\ sorted_by less_bytes (map gc_id l).
Proof.
  intros cs N. unfold commodity_items. rewrite nodup_fixed_point by exact N.
  assert (X : exists l, Permutation cs l /\ map gc_id l = sort_strings (map gc_id cs)).
  { destruct (Permutation_map_inv gc_id cs (Permutation_sym (sort_strings_perm (map gc_id cs)))) as (l & E & Pl). exists l. split; [exact Pl|symmetry; exact E]. }
  destruct X as (l & Pl & El). rewrite <- El.
  set (keep := fun g => negb (eqb_bytes (gc_name g) (B "template"))).
  assert (Fi : forall g, In g cs -> exists i, find_from 0 cs (gc_id g) = Some i /\ nth i cs (mkGCommodity [] [] [] 0) = g).
  { intros g I. destruct (find_from_complete cs 0 (gc_id g) (ex_intro _ g (conj I eq_refl))) as (i & E). exists i. split; [exact E|]. destruct (find_from_sound _ _ _ _ E) as (_ & g' & E' & G). rewrite Nat.sub_0_r in E'.
    rewrite (nth_error_nth _ _ _ E'). apply nth_error_In in E'. clear -N I E' G. induction cs as [|x cs IH]; [destruct I|]. cbn [map] in N. inversion N as [|? ? Nx Nr]; subst.
    destruct I as [->|I], E' as [->|E']; auto; exfalso; apply Nx; [rewrite <- G|rewrite G]; apply in_map; assumption. }
  exists (filter keep l). assert (K : forall l0, (forall g, In g l0 -> In g cs) -> exists is_, Forall2 commodity_entry (filter keep l0) is_ /\
    flat_map (fun id => match find_from 0 cs id with Some i => if eqb_bytes (gc_name (nth i cs (mkGCommodity [] [] [] 0))) (B "template") then [] else [ICommodity (commodity_item cs i)] | None => [] end) (map gc_id l0) = map ICommodity is_).
  { induction l0 as [|g l0 IH]; intros I; [exists []; split; [constructor|reflexivity]|]. destruct IH as (is_ & F & E); [intros; apply I; right; assumption|].
    destruct (Fi g (I g (or_introl eq_refl))) as (i & Ei & Eg). cbn [map flat_map filter]. rewrite Ei, Eg, E. unfold keep at 1. destruct (eqb_bytes (gc_name g) (B "template")); cbn [negb].
    - exists is_. auto.
    - exists (commodity_item cs i :: is_). split; [|reflexivity]. constructor; [|exact F]. unfold commodity_entry, commodity_item, commodity_at. cbv zeta. rewrite Eg. cbn [pc_id pc_name pc_dec pc_nomarket pc_symbol c_dec].
      repeat split; auto. intros k Hk ->. rewrite log10_pow by exact Hk. lia. }
  destruct (K l) as (is_ & F & E); [intros g I; apply (Permutation_in _ (Permutation_sym Pl)), I|]. exists is_. split; [exact F|]. split; [exact E|]. split.
  - clear -Pl. induction Pl as [|x a b Pl IH|x y a|a b d P1 IH1 P2 IH2]; cbn [filter]; auto.
    + destruct (keep x); [constructor|]; assumption.
    + destruct (keep x), (keep y); auto using perm_swap.
    + eapply Permutation_trans; eassumption.
  - assert (S : sorted_by less_bytes (map gc_id l)) by (rewrite El; apply sort_strings_sorted). clear -S. unfold sorted_by in *. induction l as [|g l IH]; cbn [map filter] in *; [constructor|].
    inversion S as [|? ? S1 S2]; subst. destruct (keep g); [|apply IH, S1]. cbn [map]. constructor; [apply IH, S1|]. rewrite Forall_forall in *. intros x X. apply S2. apply in_map_iff in X as (y & <- & Y). apply filter_In in Y as (Y & _). apply in_map, Y.
Qed.
Print Assumptions C91_commodities.
Definition z_env : env := mkEnv (find_commodity_at z_cs) (B "CAD") (2020, 1, 1).
Definition z_run (yearly : bool) (b : book) (f : bytes) : res (option bytes) :=
  do c <- resolve_book z_junk z_sort z_conv z_order b; do F <- gc2coin yearly (fun _ => 2%nat) (fun l => l) (bk_commodities b) (fun _ => None) c; Ok (F f).
Example C91_example : z_run false z_two (B "accounts.coin") = Ok (Some (nls ["account Assets"; "  commodity CAD"; ""; "account Assets:MyBank"; "  commodity CAD"; ""; "account Food"; "  commodity CAD"; ""; "account Root"; "  commodity CAD"; ""]%string)) /\
  z_run false z_two (B "transactions.coin") = Ok (Some (nls ["2011/09/15 (12) Store ; lunch"; "  Food            1.50 CAD"; "  Assets:MyBank  -1.50 CAD ; card"; ""; "2011/09/16 (13) Dinner"; "  Food            20.00 CAD"; "  Assets:MyBank  -20.00 CAD"; ""]%string)).
Proof. split; vm_compute; reflexivity. Qed.
(** in full the property fails: an account "Food & Drink" is written as "Food&Drink" and read back as "Food" *)
Definition z_amp : book := mkBook [z_acct "r" "Root Account" "ROOT" ""; z_acct "e" "Food & Drink" "EXPENSE" "r"] z_cs [] [].
Definition z_names (r : res (option bytes)) : res (list bytes) :=
  do t <- r; match t with Some t => do is_ <- read_text z_env t; Ok (map item_name is_) | None => Fail end.
Theorem C91_name_refuted : z_names (z_run false z_amp (B "accounts.coin")) = Ok [B "Food"; B "Root"].
Proof. vm_compute. reflexivity. Qed.
Print Assumptions C91_name_refuted.
(** and what follows a semicolon in a description becomes a note *)
Definition z_semi : book := mkBook z_accounts z_cs []
  [mkGTrans [] (B "2011-09-16 00:30:00 +0200") (B "Dinner; wine") [mkGSplit (B "e") [] (B "20/1"); mkGSplit (B "b") [] (B "-20/1")]].
Definition z_descs (r : res (option bytes)) : res (list (bytes * list bytes)) :=
  do t <- r; match t with Some t => do is_ <- read_text z_env t; Ok (map (fun x => (t_desc x, t_notes x)) (transactions_of is_)) | None => Fail end.
Theorem C91_semicolon_refuted : z_descs (z_run false z_semi (B "transactions.coin")) = Ok [(B "Dinner", [B "wine"])].
Proof. vm_compute. reflexivity. Qed.
Print Assumptions C91_semicolon_refuted.

(** ** C92 a file for every year *)
Lemma map_sorted {A C} (R : C -> C -> Prop) (Q : A -> A -> Prop) (f : A -> C) l :
  (forall x y, In x l -> In y l -> Q x y -> R (f x) (f y)) -> StronglySorted Q l -> StronglySorted R (map f l).
Proof.
  intros H S. induction S as [|x l S IH F]; cbn; constructor; [apply IH; intros; apply H; auto; right; assumption|].
  apply Forall_forall. intros z Z. apply in_map_iff in Z as (y & <- & Y). rewrite Forall_forall in F. apply H; [left; reflexivity|right; exact Y|apply F, Y].
Qed.
(** with -y and times of one time zone, every year's file has the transactions of that year, all of them, in the order of their times; the same
    for the prices; other files stay as they are *)
Theorem C92_yearly_partial : forall junk ssort conv order b c acc_dec by_name F F' z, sorts ssort -> NoDup (map ga_guid (bk_accounts b)) -> Permutation order (map ga_guid (bk_accounts b)) ->
  resolve_book junk ssort conv order b = Ok c ->
  (forall t, In t (bk_trans b) -> in_zone z (gt_posted t)) -> (forall p, In p (bk_prices b) -> in_zone z (gp_date p)) ->
  gc2coin true acc_dec by_name (bk_commodities b) F c = Ok F' ->
  (forall x, In x (cv_trans c) -> holds acc_dec F' (print_int (trans_year x) ++ B ".coin") (trans_items c (filter (fun z => trans_year z =? trans_year x) (cv_trans c)))) /\
  (forall p, In p (cv_prices c) -> holds acc_dec F' (print_int (price_year p) ++ B ".prices") (price_items (filter (fun q => price_year q =? price_year p) (cv_prices c)))) /\
  holds acc_dec F' (B "commodities.coin") (commodity_items (bk_commodities b)) /\ holds acc_dec F' (B "accounts.coin") (account_items (by_name (cv_accounts c))) /\
  forall f, f <> B "commodities.coin" -> f <> B "accounts.coin" -> ~ (exists p, In p (cv_prices c) /\ f = print_int (price_year p) ++ B ".prices") ->
    ~ (exists x, In x (cv_trans c) /\ f = print_int (trans_year x) ++ B ".coin") -> F' f = F f.
Proof.
  intros junk ssort conv order b c acc_dec by_name F F' z SS N P H Zt Zp G.
  destruct (C90_transactions _ _ _ _ _ _ SS N P H) as (ys & Y1 & Y2 & Y3 & _). destruct (C90_prices _ _ _ _ _ _ SS H) as (ps & P1 & P2 & P3).
  assert (St : StronglySorted Z.le (map trans_year (cv_trans c))).
  { refine (map_sorted _ _ _ _ _ Y3). intros x y X Y Hxy. apply (Permutation_in _ (Permutation_sym Y1)) in X, Y.
    destruct (forall2_in _ _ _ _ Y2 X) as (t & T & W & _), (forall2_in _ _ _ _ Y2 Y) as (t' & T' & W' & _).
    apply (same_zone z _ _ _ _ W W'); [apply Zt, T|apply Zt, T'|exact Hxy]. }
  assert (Sp : StronglySorted Z.le (map price_year (cv_prices c))).
  { refine (map_sorted _ _ _ _ _ P3). intros x y X Y Hxy. apply (Permutation_in _ (Permutation_sym P1)) in X, Y.
    destruct (forall2_in _ _ _ _ P2 X) as (t & T & W & _), (forall2_in _ _ _ _ P2 Y) as (t' & T' & W' & _).
    apply (same_zone z _ _ _ _ W W'); [apply Zp, T|apply Zp, T'|exact Hxy]. }
  destruct (gc2coin_yearly _ _ _ _ _ _ G Sp St) as (_ & _ & A1 & A2 & A3 & A4 & A5). auto.
Qed.
Print Assumptions C92_yearly_partial.
Definition z_price (d : string) : gprice := mkGPrice (B "CAD") (B "CAD") (B d) (B "1/1").
Definition z_txn (d n : string) : gtrans := mkGTrans [] (B d) (B n) [mkGSplit (B "e") [] (B "1/1"); mkGSplit (B "b") [] (B "-1/1")].
Definition z_years : book := mkBook z_accounts z_cs [z_price "2011-01-01 00:00:00 +0000"]
  [z_txn "2012-01-02 10:00:00 +0000" "C"; z_txn "2011-12-30 10:00:00 +0000" "A"; z_txn "2011-12-31 10:00:00 +0000" "B"].
Example C92_example : (z_descs (z_run true z_years (B "2011.coin")) = Ok [(B "A", []); (B "B", [])] /\ z_descs (z_run true z_years (B "2012.coin")) = Ok [(B "C", [])]) /\
  in_zone 0 (B "2011-01-01 00:00:00 +0000").
Proof.
  split; [split; vm_compute; reflexivity|]. exists (mkMoment 2011 1 1 0 0 0 false 0 0). split; [|split; reflexivity]. unfold moment_ok, valid_date. cbn. lia.
Qed.
(** in full the property fails: A is posted at 20:00 on Dec 31 in -0500, B an hour earlier but on Jan 1 in +0900, C on Jan 2; the file of 2012 is started
    twice, and B is lost *)
Definition z_zones : book := mkBook z_accounts z_cs [z_price "2011-01-01 00:00:00 +0000"]
  [z_txn "2012-01-01 09:00:00 +0900" "B"; z_txn "2011-12-31 20:00:00 -0500" "A"; z_txn "2012-01-02 10:00:00 +0000" "C"].
Theorem C92_zones_refuted : z_descs (z_run true z_zones (B "2012.coin")) = Ok [(B "C", [])] /\ z_descs (z_run true z_zones (B "2011.coin")) = Ok [(B "A", [])].
Proof. split; vm_compute; reflexivity. Qed.
Print Assumptions C92_zones_refuted.
(** and without prices or without transactions -y stops, after having emptied or written some of the files *)
Theorem C92_no_prices_refuted : forall acc_dec by_name cs F c, cv_prices c = [] \/ cv_trans c = [] -> forall F', gc2coin true acc_dec by_name cs F c <> Ok F'.
Proof.
  intros acc_dec by_name cs F c H F' E. unfold gc2coin in E. apply bind_ok in E as (ct & Hc & E). cbn zeta in E. apply bind_ok in E as (pt & Hp & E). apply bind_ok in E as ([Fp yp] & Hy & E).
  apply bind_ok in E as (at_ & Ha & E). apply bind_ok in E as (tt_ & Ht & E). apply bind_ok in E as ([Ft yt] & Hz & E). destruct H as [H|H].
  - rewrite H in Hp. cbn in Hp. injection Hp as <-. discriminate.
  - rewrite H in Ht. cbn in Ht. injection Ht as <-. discriminate.
Qed.
Print Assumptions C92_no_prices_refuted.
(** the slot of an account: the first of this key, nothing if there is none *)
Theorem C89_slot : forall key l v, slot key l = v <->
  (exists pre post, l = pre ++ (key, v) :: post /\ ~ In key (map fst pre)) \/ (v = [] /\ ~ In key (map fst l)).
Proof.
  intros key l. induction l as [|[k w] l IH]; intros v; cbn [slot].
  - split; [intros <-; right; split; [reflexivity|intros []]|]. intros [(pre & post & E & _)|(-> & _)]; [destruct pre; discriminate|reflexivity].
  - destruct (eqb_bytes k key) eqn:E.
    + apply eqb_bytes_eq in E. subst k. split.
      * intros ->. left. exists [], l. split; [reflexivity|intros []].
      * intros [(pre & post & E & N)|(_ & N)]; [|elim N; left; reflexivity]. destruct pre as [|x pre]; [injection E as ->; reflexivity|].
        injection E as <- _. elim N. left. reflexivity.
    + assert (Nk : k <> key) by (intros ->; rewrite eqb_bytes_refl in E; discriminate). rewrite IH. split.
      * intros [(pre & post & -> & N)|(-> & N)]; [left; exists ((k, w) :: pre), post; split; [reflexivity|]|right; split; [reflexivity|]]; cbn [map fst In]; intros [X|X]; tauto.
      * intros [(pre & post & X & N)|(-> & N)]; [left|right; split; [reflexivity|]; intros Y; apply N; right; exact Y].
        destruct pre as [|x pre]; [injection X as X1 _ _; congruence|]. injection X as <- ->. exists pre, post. split; [reflexivity|]. intros Y. apply N. right. exact Y.
Qed.
Print Assumptions C89_slot.
