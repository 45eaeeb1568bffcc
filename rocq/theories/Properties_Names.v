(** C30-C32, C50, C65, C66: tags and account names. *)
From Coq Require Import Permutation Sorted.
From Verif Require Import Base M_Regex M_Parser M_Names M_Writer M_Tags S_Names L_Dec L_Sort L_Names L_Regex L_RegexSound L_Tags.

(** ** C30 *)
Theorem C30_tag_line_round_trip : forall lines k,
  tag_get k (parse_tags [tag_line (parse_tags lines)]) = tag_get k (parse_tags lines).
Proof. exact (fun lines => tag_line_round_trip _ (parse_tags_ok lines)). Qed.
Print Assumptions C30_tag_line_round_trip.
(** the line modify adds for the argument of -tt: or -pt: has the tags of the argument *)
Theorem C30_modify_argument : forall val line, must_parse_tags val = Ok line ->
  (forall k, tag_get k (parse_tags [line]) = tag_get k (parse_tags [val])) /\ exists k v, tag_get k (parse_tags [val]) = Some v.
Proof.
  intros val line H. unfold must_parse_tags in H. destruct (parse_tags [val]) as [|[k0 v0] t] eqn:E; [discriminate|]. injection H as <-. split.
  - rewrite <- E. apply C30_tag_line_round_trip.
  - exists k0, v0. cbn. rewrite (proj2 (eqb_bytes_eq _ _) eq_refl). reflexivity.
Qed.
Print Assumptions C30_modify_argument.
Example C30_example : must_parse_tags (B "some #b:two words , #a/1 text, #c: x") = Ok (B "#a/1, #b:two words, #c: x").
Proof. vm_compute. reflexivity. Qed.

(** ** C31 *)
Theorem C31_inverted_filter_partial : forall compile exp m m' kv,
  ~ starts (B "!") exp -> new_tag_matcher compile exp = Some m -> new_tag_matcher compile (B "!" ++ exp) = Some m' ->
  tags_match m' [kv] = negb (tags_match m [kv]).
Proof.
  intros compile exp m m' kv Hs Hm Hm'. destruct exp as [|c r]; [discriminate|]. unfold new_tag_matcher in Hm, Hm'.
  destruct (eqc c "!"%char) eqn:E; [apply Ascii.eqb_eq in E; subst; exfalso; apply Hs; exists r; reflexivity|].
  cbn [B list_ascii_of_string app] in Hm'. rewrite eqc_same in Hm'.
  assert (M : exists k v, m = mkTagMatcher k v false /\ m' = mkTagMatcher k v true).
  { destruct (split_on ":"%char (c :: r)) as [|k [|v vs]]; [discriminate| |]; injection Hm as <-; injection Hm' as <-; eauto. }
  destruct M as (k & v & -> & ->). unfold tags_match, tag_matches. cbn. destruct (k (fst kv) && _); reflexivity.
Qed.
Print Assumptions C31_inverted_filter_partial.
(** for any set of tags: the filter selects it if some tag matches, the inverted one if some tag does not match *)
Theorem C31_inverted_filter_meaning : forall compile exp m m',
  ~ starts (B "!") exp -> new_tag_matcher compile exp = Some m -> new_tag_matcher compile (B "!" ++ exp) = Some m' ->
  forall t, (tags_match m t = true <-> exists kv, In kv t /\ tags_match m [kv] = true) /\
            (tags_match m' t = true <-> exists kv, In kv t /\ tags_match m [kv] = false).
Proof.
  intros compile exp m m' Hs Hm Hm' t. assert (Sing : forall m t, tags_match m t = true <-> exists kv, In kv t /\ tags_match m [kv] = true).
  { intros m0 t0. unfold tags_match. rewrite existsb_exists. split; intros (kv & H1 & H2); exists kv; (split; [exact H1|]).
    - cbn. rewrite H2. reflexivity.
    - cbn in H2. rewrite orb_false_r in H2. exact H2. }
  split; [apply Sing|]. rewrite Sing. split; intros (kv & H1 & H2); exists kv; (split; [exact H1|]).
  - rewrite (C31_inverted_filter_partial compile exp m m' kv Hs Hm Hm') in H2. apply negb_true_iff, H2.
  - rewrite (C31_inverted_filter_partial compile exp m m' kv Hs Hm Hm'), H2. reflexivity.
Qed.
Print Assumptions C31_inverted_filter_meaning.
(** what an expression [!]KEY[:VALUE] selects; [compile] says what the regular expressions match *)
Theorem C31_expression : forall compile (inverted : bool) key value t, ~ In ":"%char key -> ~ starts (B "!") key ->
  tag_exp inverted key value <> [] ->
  exists m, new_tag_matcher compile (tag_exp inverted key value) = Some m /\
    (tags_match m t = true <-> exists k v, In (k, v) t /\
       let hit := compile key k = true /\ (forall w, value = Some w -> compile w v = true) in
       if inverted then ~ hit else hit).
Proof.
  intros compile inverted key value t HC HS HE.
  set (m := mkTagMatcher (compile key) (match value with Some w => Some (compile w) | None => None end) inverted).
  exists m. split.
  - assert (SP : split_on ":"%char (key ++ match value with Some v => B ":" ++ v | None => [] end) = key :: match value with Some v => split_on ":"%char v | None => [] end).
    { destruct value as [v|].
      - change (B ":" ++ v) with (":"%char :: v). clear -HC. induction key as [|c key IH]; [reflexivity|]. cbn [app split_on].
        replace (eqc c ":"%char) with false.
        + rewrite IH; [reflexivity|]. intros I. apply HC. right. exact I.
        + symmetry. apply not_true_is_false. intros E. apply Ascii.eqb_eq in E. subst c. apply HC. left. reflexivity.
      - rewrite app_nil_r. apply (split_join ":"%char [key]); [discriminate|]. constructor; [exact HC|constructor]. }
    assert (R : match split_on ":"%char (key ++ match value with Some v => B ":" ++ v | None => [] end) with
      | [] => None
      | [k] => Some (mkTagMatcher (compile k) None inverted)
      | k :: (_ :: _) as vs => Some (mkTagMatcher (compile k) (Some (compile (join (B ":") vs))) inverted)
      end = Some m).
    { rewrite SP. unfold m. destruct value as [v|]; [|reflexivity]. assert (J := join_split ":"%char v).
      destruct (split_on ":"%char v) as [|p ps] eqn:E; [|change (B ":") with [":"%char]; rewrite J; reflexivity].
      exfalso. revert E. clear. induction v as [|c v IH]; [discriminate|]. cbn [split_on]. destruct (eqc c ":"%char); [discriminate|]. destruct (split_on ":"%char v); discriminate. }
    unfold new_tag_matcher, tag_exp in *. destruct inverted.
    + cbn [app B list_ascii_of_string]. rewrite eqc_same. exact R.
    + cbn [app] in HE |- *. destruct (key ++ _) as [|c r] eqn:E; [congruence|].
      replace (eqc c "!"%char) with false; [exact R|]. symmetry. apply not_true_is_false. intros X. apply Ascii.eqb_eq in X. subst c.
      destruct key as [|c key].
      * destruct value; discriminate.
      * cbn [app] in E. injection E as -> E. apply HS. exists key. reflexivity.
  - unfold tags_match. rewrite existsb_exists. assert (HIT : forall k v, tag_matches m (k, v) = true <-> compile key k = true /\ (forall w, value = Some w -> compile w v = true)).
    { intros k v. unfold tag_matches, m. cbn [tm_key tm_value fst snd]. rewrite andb_true_iff. destruct value as [w|].
      - split; intros [A1 A2]; (split; [exact A1|]); [intros w' E; injection E as <-; exact A2|apply A2; reflexivity].
      - split; intros [A1 A2]; (split; [exact A1|]); [discriminate|reflexivity]. }
    cbv zeta. split.
    + intros ([k v] & I & H). exists k, v. split; [exact I|]. destruct (HIT k v) as [H1 H2]. change (tm_inverted m) with inverted in H.
      destruct inverted; destruct (tag_matches m (k, v)); cbn in H; try discriminate; [intros X; specialize (H2 X); discriminate|apply H1; reflexivity].
    + intros (k & v & I & H). exists (k, v). split; [exact I|]. destruct (HIT k v) as [H1 H2]. change (tm_inverted m) with inverted.
      destruct inverted; destruct (tag_matches m (k, v)) eqn:E; cbn; try reflexivity; [exfalso; apply H, H1; reflexivity|specialize (H2 H); discriminate].
Qed.
Print Assumptions C31_expression.
Definition ex_compile (p s : bytes) : bool := eqb_bytes p s.
Example C31_example : exists m m', new_tag_matcher ex_compile (B "a:b") = Some m /\ new_tag_matcher ex_compile (B "!a:b") = Some m' /\
  tags_match m [(B "a", B "b")] = true /\ tags_match m' [(B "a", B "b")] = false /\ tags_match m' [(B "a", B "c")] = true.
Proof. do 2 eexists. repeat split. Qed.
Example C31_expression_example : tag_exp true (B "a") (Some (B "b:c")) = B "!a:b:c" /\ ~ In ":"%char (B "a") /\ ~ starts (B "!") (B "a") /\
  match new_tag_matcher ex_compile (B "a:b:c") with Some m => (tags_match m [(B "a", B "b:c")], tags_match m [(B "a", B "b")]) | None => (false, false) end = (true, false).
Proof. repeat split; [cbn; intuition discriminate|]. intros (r & E). discriminate. Qed.
(** postings without tags are selected by neither, postings with two tags can be selected by both *)
Theorem C31_inverted_filter_refuted : exists compile exp m m',
  new_tag_matcher compile exp = Some m /\ new_tag_matcher compile (B "!" ++ exp) = Some m' /\
  (tags_match m [] = false /\ tags_match m' [] = false) /\
  exists t, tags_match m t = true /\ tags_match m' t = true.
Proof.
  exists ex_compile, (B "a"). do 2 eexists. split; [reflexivity|]. split; [reflexivity|]. split; [split; reflexivity|].
  exists [(B "a", []); (B "b", [])]. split; reflexivity.
Qed.
Print Assumptions C31_inverted_filter_refuted.

(** ** C32 *)
Theorem C32_account_pattern_partial : forall compile names pattern,
  (* a full name is the account *)
  (In pattern names -> must_find_account compile names pattern = Ok pattern) /\
  (* the account found exists, and matches unless it was named in full *)
  (forall a, must_find_account compile names pattern = Ok a -> In a names /\ (a = pattern \/ compile pattern a = true)) /\
  (* nothing matches: rejected *)
  (~ In pattern names -> (forall a, In a names -> compile pattern a = false) -> must_find_account compile names pattern = Panic) /\
  (* the only match, or the match all others are below *)
  (forall a, ~ In pattern names -> NoDup names -> In a names -> compile pattern a = true ->
     (forall b, In b names -> compile pattern b = true -> b = a \/ below a b) -> must_find_account compile names pattern = Ok a) /\
  (* two matches of which neither name starts with the other: rejected *)
  (forall a b, ~ In pattern names -> NoDup names -> (forall c, In c names /\ compile pattern c = true <-> c = a \/ c = b) ->
     (forall r, b <> a ++ r) -> (forall r, a <> b ++ r) -> must_find_account compile names pattern = Panic).
Proof. exact must_find_spec. Qed.
Print Assumptions C32_account_pattern_partial.
Definition sub_compile (p s : bytes) : bool := match rsearch (rlit p) s with Some _ => true | None => false end.
Example C32_example : NoDup [B "Assets:Bank:Fees"; B "Income:Bank"; B "Assets:Bank"] /\
  must_find_account sub_compile [B "Assets:Bank:Fees"; B "Income:Bank"; B "Assets:Bank"] (B "Assets:B") = Ok (B "Assets:Bank") /\
  must_find_account sub_compile [B "Assets:Bank:Fees"; B "Income:Bank"; B "Assets:Bank"] (B "Bank:F") = Ok (B "Assets:Bank:Fees") /\
  must_find_account sub_compile [B "Assets:Bank"; B "Income:Bank"] (B "Bank") = Panic.
Proof. split; [repeat constructor; cbn; intuition discriminate|]. repeat split. Qed.
(** an ambiguous pattern can be accepted: only the second match in name order is looked at, and as a prefix of the text *)
Theorem C32_ambiguous_refuted :
  must_find_account sub_compile [B "Assets:Bank"; B "Assets:Bank:Fees"; B "Income:Bank"] (B "Bank") = Ok (B "Assets:Bank") /\
  must_find_account sub_compile [B "Assets:Car"; B "Assets:Cards"] (B "Car") = Ok (B "Assets:Car").
Proof. split; vm_compute; reflexivity. Qed.
Print Assumptions C32_ambiguous_refuted.

(** ** C50 *)
Theorem C50_shorten : forall n segs size, segments n segs ->
  exists segs', segments (shorten_account_name n size) segs' /\
    Forall2 (fun s' s => (exists r, s = s' ++ r) /\ (s <> [] -> s' <> [])) segs' segs /\
    (Z.of_nat (List.length n) <= size -> shorten_account_name n size = n) /\
    (size < Z.of_nat (List.length n) -> Z.of_nat (List.length (shorten_account_name n size)) = Z.max size (shortest segs)).
Proof. exact shorten_name_spec. Qed.
Print Assumptions C50_shorten.
Example C50_example : segments (B "Assets:Bank:Checking") [B "Assets"; B "Bank"; B "Checking"] /\
  shorten_account_name (B "Assets:Bank:Checking") 14 = B "A:Ban:Checking" /\ shorten_account_name (B "Assets:Bank:Checking") 2 = B "A:B:C".
Proof.
  split; [|split; reflexivity]. split; [discriminate|]. split; [|reflexivity].
  repeat constructor; cbn; intuition discriminate.
Qed.

(** ** C65: tags added by modify *)
(** [val]'s tags are added and the other tags kept, if the line is put after all notes, or if the first note, which it is
    appended to, has no '#' and the later notes have none of the added tags *)
Theorem C65_add_tags_partial : forall val line notes, must_parse_tags val = Ok line ->
  (match notes with
   | [] => True
   | n :: r => (List.length n + List.length line < 80)%nat -> ~ In "#"%char n /\ forall k, tag_get k (parse_tags [val]) <> None -> tag_get k (parse_tags r) = None
   end) ->
  forall k, tag_get k (parse_tags (add_tag_line notes line)) =
    match tag_get k (parse_tags [val]) with Some v => Some v | None => tag_get k (parse_tags notes) end.
Proof.
  intros val line notes H Hn k. unfold must_parse_tags in H. destruct (parse_tags [val]) as [|kv t] eqn:E; [discriminate|]. injection H as <-.
  rewrite <- E in *. apply add_tag_tags; [apply parse_tags_ok|]. exact Hn.
Qed.
Print Assumptions C65_add_tags_partial.
Example C65_example : must_parse_tags (B "#trip:Rome 2020") = Ok (B "#trip:Rome 2020") /\
  add_tag_line [B "dinner"; B "#fun"] (B "#trip:Rome 2020") = [B "dinner #trip:Rome 2020"; B "#fun"] /\
  (~ In "#"%char (B "dinner") /\ forall k, tag_get k (parse_tags [B "#trip:Rome 2020"]) <> None -> tag_get k (parse_tags [B "#fun"]) = None).
Proof.
  split; [vm_compute; reflexivity|]. split; [vm_compute; reflexivity|]. split; [cbn; intuition discriminate|].
  intros k. change (parse_tags [B "#trip:Rome 2020"]) with [(B "trip", B "Rome 2020")]. change (parse_tags [B "#fun"]) with [(B "fun", @nil ascii)].
  cbn [tag_get]. destruct (eqb_bytes k (B "trip")) eqn:E; [|congruence]. apply eqb_bytes_eq in E. subst k. reflexivity.
Qed.
(** the value of an existing tag swallows the new tag; a tag of a later note hides it *)
Theorem C65_add_tags_refuted :
  parse_tags (add_tag_line [B "#foo: bar"] (B "#x")) = [(B "foo", B "bar #x")] /\
  parse_tags (add_tag_line [B "n"; B "#x:old"] (B "#x:new")) = [(B "x", B "old")].
Proof. split; vm_compute; reflexivity. Qed.
Print Assumptions C65_add_tags_refuted.

(** ** C66: tags as documented: "#key" or "#key: some value", the value ends at a comma or at the end of the line *)
Theorem C66_value_tags_partial : forall pre k sp1 v sp2, ~ In "#"%char pre -> k <> [] -> forallb tag_char k = true ->
  forallb is_space sp1 = true -> plain_value v -> forallb is_space sp2 = true ->
  line_tags (pre ++ B "#" ++ k ++ B ":" ++ sp1 ++ v ++ sp2) = [(k, v)] /\
  forall r, something_follows r -> line_tags (pre ++ B "#" ++ k ++ B ":" ++ sp1 ++ v ++ sp2 ++ B "," ++ r) = (k, v) :: line_tags r.
Proof.
  intros pre k sp1 v sp2 Hpre Hk1 Hk2 Hs1 (x & y & z & -> & Hc & Hx & Hz) Hs2.
  assert (Hc1 : ~ In ","%char (x :: y)) by (intros Hi; apply Hc; change (x :: y ++ [z]) with ((x :: y) ++ [z]); apply in_or_app; left; exact Hi).
  assert (Hc2 : z <> ","%char) by (intros ->; apply Hc; right; apply in_or_app; right; left; reflexivity).
  split.
  - pose proof (value_tag pre k sp1 (x :: y) z sp2 [] [] Hpre (conj Hk1 Hk2) Hs1 ltac:(discriminate) Hx Hc1 Hz Hc2 Hs2 (or_introl (conj eq_refl eq_refl))) as H.
    change (line_tags []) with (@nil (bytes * bytes)) in H. rewrite app_nil_r in H. change [(k, x :: y ++ [z])] with [(k, (x :: y) ++ [z])]. etransitivity; [|exact H]. cbn [app]. rewrite <- app_assoc. reflexivity.
  - intros r Hr. pose proof (value_tag pre k sp1 (x :: y) z sp2 (","%char :: r) r Hpre (conj Hk1 Hk2) Hs1 ltac:(discriminate) Hx Hc1 Hz Hc2 Hs2 (or_intror (conj eq_refl Hr))) as H.
    etransitivity; [|exact H]. cbn [app]. rewrite <- app_assoc. reflexivity.
Qed.
Print Assumptions C66_value_tags_partial.
Example C66_example : plain_value (B "two words") /\ something_follows (B " #b") /\ forallb tag_char (B "a-1/x") = true.
Proof.
  split; [|split; [|reflexivity]].
  - exists "t"%char, (B "wo word"), "s"%char. repeat split; cbn; intuition discriminate.
  - exists (B " "), "#"%char, (B "b"). repeat split. discriminate.
Qed.
(** a value of one character is lost, or keeps a space; a comma at the end of the line becomes part of the value *)
Theorem C66_value_tags_refuted :
  line_tags (B "#foo:x") = [(B "foo", [])] /\ line_tags (B "#foo: x") = [(B "foo", B " x")] /\ line_tags (B "#foo: bar,") = [(B "foo", B "bar,")].
Proof. repeat split; vm_compute; reflexivity. Qed.
Print Assumptions C66_value_tags_refuted.
