(** The text of the register command. *)
From Coq Require Import Permutation Sorted.
From Verif Require Import Base M_Amount M_Date M_Names M_Parser M_Ledger M_Report M_Json M_Output S_Decimal S_Amount S_Names S_Books S_Output
  S_DateText L_Dec L_Names L_Amount L_DateText L_Tree L_Output L_Output2 Properties_Names.
Local Open Scope Z_scope.

Lemma other_first x p q : other x p = Some q -> first_other (x_posts x) p q.
Proof.
  unfold other. induction (x_posts x) as [|k l IH]; cbn [List.find]; [discriminate|]. destruct (k =? p)%nat eqn:E; cbn [negb].
  - intros H. destruct (IH H) as (N & a & b & -> & F). split; [exact N|]. exists (k :: a), b. split; [reflexivity|]. constructor; [|exact F]. apply Nat.eqb_eq in E. auto.
  - intros [= <-]. apply Nat.eqb_neq in E. split; [exact E|]. exists [], l. split; [reflexivity|constructor].
Qed.
Lemma trim_prefix_after p s : name_after p s (trim_prefix p s).
Proof.
  unfold trim_prefix, name_after. destruct (starts_with p s) eqn:E.
  - left. revert s E. induction p as [|c p IH]; intros s E; cbn [List.length skipn app]; [reflexivity|]. destruct s as [|d s]; [discriminate|]. cbn [starts_with] in E.
    apply andb_true_iff in E as [E1 E2]. apply eqc_eq in E1 as ->. f_equal. apply IH, E2.
  - right. split; [|reflexivity]. intros (r & ->). assert (starts_with p (p ++ r) = true); [|congruence]. clear E. induction p as [|c p IH]; [reflexivity|]. cbn [app starts_with]. rewrite IH. rewrite eqc_refl. reflexivity.
Qed.
Lemma trim_prefix_len p s : (List.length (trim_prefix p s) <= List.length s)%nat.
Proof. unfold trim_prefix. destruct (starts_with p s); [rewrite skipn_length; lia|lia]. Qed.
Lemma shorten_abbreviated n size : abbreviated size n (shorten_account_name n size).
Proof. intros segs S. exact (C50_shorten n segs size S). Qed.
Lemma name_segments (n : bytes) : exists segs, segments n segs.
Proof. exists (split_on ":"%char n). split; [apply split_on_nonnil|]. split; [apply split_no_sep|symmetry; apply join_split]. Qed.
Lemma shorten_len n size : (List.length (shorten_account_name n size) <= List.length n)%nat.
Proof.
  destruct (name_segments n) as (segs & S). destruct (C50_shorten n segs size S) as (segs' & S' & F & _).
  destruct S as (_ & _ & ->), S' as (_ & _ & ->). induction F as [|a b la lb [(r & E) _] F IH]; [apply le_n|]. subst b.
  inversion F as [|y y' l l' _ _]; subst; [cbn [join]; rewrite app_length; lia|].
  change (join (B ":") (a :: y :: l)) with (a ++ B ":" ++ join (B ":") (y :: l)). change (join (B ":") ((a ++ r) :: y' :: l')) with ((a ++ r) ++ B ":" ++ join (B ":") (y' :: l')).
  rewrite !app_length in *. lia.
Qed.
Lemma shorten_fits acc a size : fits size acc a -> (List.length (shorten_account_name (trim_prefix acc a) size) <= Z.to_nat size)%nat.
Proof.
  intros H. destruct (name_segments (trim_prefix acc a)) as (segs & S). specialize (H _ _ (trim_prefix_after acc a) S).
  destruct (C50_shorten _ segs size S) as (segs' & _ & _ & H1 & H2).
  destruct (Z_le_gt_dec (Z.of_nat (List.length (trim_prefix acc a))) size) as [G|G]; [rewrite H1 by exact G; lia|]. specialize (H2 ltac:(lia)). lia.
Qed.
Lemma max_len_ok f is i : In i is -> (List.length (f i) <= max_len f is)%nat.
Proof. unfold max_len. induction is as [|j is IH]; [intros []|]. intros [-> |I]; cbn [fold_right]; [lia|specialize (IH I); lia]. Qed.
Lemma max_qty_ok is : (forall i, In i is -> printable (i_qty i) /\ i_dec i = c_dec (a_com (i_qty i))) ->
  exists k, max_qty is = Ok k /\ forall i s, In i is -> format_amount (i_qty i) (a_dec (i_qty i)) = Ok s -> (List.length s <= k)%nat.
Proof.
  induction is as [|i is IH]; intros H; cbn [max_qty]; [exists O; split; [reflexivity|intros i s []]|].
  destruct (H i (or_introl eq_refl)) as [P D]. destruct (amount_width (i_qty i) P) as (s & F & _ & _ & W). rewrite D, W. cbn [bind].
  destruct IH as (k & -> & K); [intros j J; apply H; right; exact J|]. cbn [bind]. eexists. split; [reflexivity|].
  intros j s' [<- |I] E; [rewrite F in E; injection E as <-; lia|specialize (K j s' I E); lia].
Qed.
(** ** Running totals *)
Lemma running_total conv : forall qs t0, (forall i, (i < List.length qs)%nat -> exists t, add_all conv t0 (firstn (S i) qs) = Ok t) ->
  exists ts, running conv t0 qs = Ok ts.
Proof.
  induction qs as [|q qs IH]; intros t0 H; cbn [running]; [eauto|]. destruct (H O ltac:(cbn; lia)) as (t & Ht). cbn [firstn add_all] in Ht.
  destruct (add_in conv t0 q) as [t1| |] eqn:E; cbn [bind] in Ht; try discriminate. cbn [bind].
  destruct (IH t1) as (ts & ->); [|cbn [bind]; eauto]. intros i Hi. destruct (H (S i) ltac:(cbn; lia)) as (t' & Ht'). cbn [firstn add_all] in Ht'. rewrite E in Ht'. cbn [bind] in Ht'. eauto.
Qed.
(** ** Lines *)
Definition row_ok (long : bool) (o : lopts) (w0 w1 w2 w3 tw : nat) (i : item) (t : amount) (line : list bytes * bytes) : Prop :=
  exists sq st, format_amount (i_qty i) (a_dec (i_qty i)) = Ok sq /\ format_amount t (a_dec t) = Ok st /\
    fst line = [format_date (i_date i); padl w0 (i_desc i)] ++ (if long then [padl w1 (account_label o (i_acc i))] else [])
               ++ [padl w3 (account_label o (i_other i)); padl w2 sq; padl tw st] /\
    snd line = B " " ++ i_cid i ++ (if i_asserted i then B "*" else B " ") ++ (match lo_loc o with Some _ => B "| " ++ i_loc i | None => [] end) ++ [nline]
               ++ (if lo_notes o then note_lines (format_date (i_date i)) (i_notes i) else []).
Lemma join_snoc (sep : bytes) l x y : join sep (l ++ [x ++ y]) = join sep (l ++ [x]) ++ y.
Proof.
  induction l as [|a l IH]; [reflexivity|]. cbn [app join]. destruct (l ++ [x ++ y]) as [|b r] eqn:E1; [destruct l; discriminate|].
  destruct (l ++ [x]) as [|b' r'] eqn:E2; [destruct l; discriminate|]. rewrite IH, <- !app_assoc. reflexivity.
Qed.
Lemma listing_lines_ok long o w0 w1 w2 w3 tw : forall is ts, List.length ts = List.length is ->
  (forall i, In i is -> (c_dec (a_com (i_qty i)) <= 50)%nat) -> (forall t, In t ts -> (c_dec (a_com t) <= 50)%nat) ->
  exists lines, listing_lines long o (Z.of_nat w0) (Z.of_nat w1) (Z.of_nat w2) (Z.of_nat w3) (Z.of_nat tw) is ts = Ok (register_text lines) /\
    List.length lines = List.length is /\
    forall k i t, nth_error is k = Some i -> nth_error ts k = Some t -> exists line, nth_error lines k = Some line /\ row_ok long o w0 w1 w2 w3 tw i t line.
Proof.
  induction is as [|i is IH]; intros [|t ts] Hl Hq Ht; try discriminate; cbn [listing_lines]; [exists []; repeat split; intros [|k]; discriminate|].
  destruct (IH ts) as (lines & -> & El & H); [cbn in Hl; lia|intros j J; apply Hq; right; exact J|intros j J; apply Ht; right; exact J|].
  destruct (amount_text (i_qty i)) as (sq & Fq & _); [apply Hq; left; reflexivity|]. destruct (amount_text t) as (st & Ft & _); [apply Ht; left; reflexivity|].
  unfold listing_line. rewrite (star_amount_ok w2 _ _ Fq), (star_amount_ok tw _ _ Ft). cbn [bind]. rewrite !star_nat.
  exists (([format_date (i_date i); padl w0 (i_desc i)] ++ (if long then [padl w1 (account_label o (i_acc i))] else [])
               ++ [padl w3 (account_label o (i_other i)); padl w2 sq; padl tw st],
           B " " ++ i_cid i ++ (if i_asserted i then B "*" else B " ") ++ (match lo_loc o with Some _ => B "| " ++ i_loc i | None => [] end) ++ [nline]
               ++ (if lo_notes o then note_lines (format_date (i_date i)) (i_notes i) else [])) :: lines).
  split; [|split].
  - f_equal. unfold register_text. cbn [flat_map fst snd]. f_equal. 
    set (a := if long then _ else _). set (b := padl w3 _). 
    change ([format_date (i_date i); padl w0 (i_desc i)] ++ a ++ [b; padl w2 sq; padl tw st ++ B " " ++ i_cid i ++ [if i_asserted i then "*"%char else " "%char]])
      with (([format_date (i_date i); padl w0 (i_desc i)] ++ a ++ [b; padl w2 sq; padl tw st ++ B " " ++ i_cid i ++ [if i_asserted i then "*"%char else " "%char]])).
    replace ([format_date (i_date i); padl w0 (i_desc i)] ++ a ++ [b; padl w2 sq; padl tw st ++ B " " ++ i_cid i ++ [if i_asserted i then "*"%char else " "%char]])
      with (([format_date (i_date i); padl w0 (i_desc i)] ++ a ++ [b; padl w2 sq]) ++ [padl tw st ++ B " " ++ i_cid i ++ [if i_asserted i then "*"%char else " "%char]]) by (rewrite <- !app_assoc; reflexivity).
    rewrite join_snoc. rewrite <- !app_assoc. cbn [app]. f_equal. f_equal. f_equal. destruct (i_asserted i); reflexivity.
  - cbn [List.length]. rewrite El. reflexivity.
  - intros [|k] j u Hj Hu; cbn [nth_error] in *; [|apply H; assumption]. injection Hj as <-. injection Hu as <-. eexists. split; [reflexivity|].
    exists sq, st. repeat (split; [assumption||reflexivity|]). reflexivity.
Qed.
Lemma items_ok L tx_of comm cid o : forall ps, (forall p, In p ps -> exists q a, other (tx_of p) p = Some q /\ rp_qty (heap L p) = Some a) ->
  exists is, items L tx_of comm cid o ps = Ok is /\
    Forall2 (fun p i => exists q a, other (tx_of p) p = Some q /\ rp_qty (heap L p) = Some a /\
      i = mkItem (x_posted (tx_of p)) (x_desc (tx_of p)) (rp_acc (heap L p)) (rp_acc (heap L q)) a (c_dec (comm (rp_acc (heap L p))))
                     (cid (rp_acc (heap L p))) (rp_asserted (heap L p)) (rp_notes (heap L p) ++ x_notes (tx_of p))
                     (match lo_loc o with Some f => f (tx_of p) | None => [] end)) ps is.
Proof.
  induction ps as [|p ps IH]; intros H; cbn [items]; [exists []; split; [reflexivity|constructor]|].
  destruct (H p (or_introl eq_refl)) as (q & a & E1 & E2). rewrite E1, E2. destruct IH as (is & -> & F); [intros r R; apply H; right; exact R|]. cbn [bind].
  eexists. split; [reflexivity|]. constructor; [|exact F]. exists q, a. repeat (split; [assumption|]). reflexivity.
Qed.
Lemma format_date_len n : 0 <= year_of n <= 9999 -> rune_count (format_date n) = 10%nat.
Proof.
  intros H. destruct (format_date_text n H) as (ys & ms & ds & H1 & H2 & H3 & _ & _ & _ & ->).
  assert (D : forall k l, digits_n k l -> forallb ascii7 (dtext l) = true /\ List.length (dtext l) = k).
  { intros k l [_ <-]. unfold dtext. split; [|apply map_length]. induction l as [|d l IH]; [reflexivity|]. cbn [map forallb]. rewrite digit_ascii. exact IH. }
  destruct (D _ _ H1) as [A1 L1], (D _ _ H2) as [A2 L2], (D _ _ H3) as [A3 L3]. unfold date_text. destruct H1 as [_ N]. destruct ys as [|y ys]; [discriminate|].
  unfold ymd_text, md_text. rewrite rune_count_all; [rewrite !app_length, L1, L2, L3; reflexivity|]. rewrite !forallb_app, A1, A2, A3. reflexivity.
Qed.
Lemma forall2_in_l {A C} (R : A -> C -> Prop) l r x : Forall2 R l r -> In x l -> exists y, In y r /\ R x y.
Proof. intros F. induction F as [|a b la lb H F IH]; [intros []|]. intros [-> |I]; [exists b; split; [left; reflexivity|exact H]|]. destruct (IH I) as (y & I' & Hy). exists y. split; [right; exact I'|exact Hy]. Qed.
Lemma forall2_in_r' {A C} (R : A -> C -> Prop) l r y : Forall2 R l r -> In y r -> exists x, In x l /\ R x y.
Proof. intros F. induction F as [|a b la lb H F IH]; [intros []|]. intros [-> |I]; [exists a; split; [left; reflexivity|exact H]|]. destruct (IH I) as (x & I' & Hx). exists x. split; [right; exact I'|exact Hx]. Qed.
Lemma forall2_nth {A C} (R : A -> C -> Prop) l r : Forall2 R l r -> forall k x, nth_error l k = Some x -> exists y, nth_error r k = Some y /\ R x y.
Proof. intros F. induction F as [|a b la lb H F IH]; intros [|k] x E; cbn [nth_error] in *; try discriminate; [injection E as <-; eauto|eauto]. Qed.
Lemma nth_in {A} (l : list A) : forall x, In x l -> exists k, nth_error l k = Some x.
Proof. intros x I. apply In_nth_error, I. Qed.
Lemma last_nth {A} (l : list A) d : l <> [] -> nth_error l (List.length l - 1) = Some (last l d).
Proof.
  induction l as [|a l IH]; [contradiction|]. intros _. destruct l as [|b l]; [reflexivity|]. cbn [List.length last]. replace (S (S (List.length l)) - 1)%nat with (S (List.length (b :: l) - 1)) by (cbn [List.length]; lia).
  cbn [nth_error]. apply IH. discriminate.
Qed.
Lemma nth_error_same {A} : forall l l' : list A, (forall i, nth_error l i = nth_error l' i) -> l = l'.
Proof.
  induction l as [|a l IH]; intros [|b l'] H; [reflexivity|specialize (H O); discriminate|specialize (H O); discriminate|].
  pose proof (H O) as H0. injection H0 as ->. f_equal. apply IH. intros i. exact (H (S i)).
Qed.
Lemma forall2_len {A C} (R : A -> C -> Prop) l r : Forall2 R l r -> List.length l = List.length r.
Proof. intros F. induction F; cbn [List.length]; congruence. Qed.
