(** Rows as CSV and as lines of JSON. *)
From Verif Require Import Base M_Amount M_Json M_Output S_Decimal S_Amount S_Output L_Dec L_Names L_Json L_RoundTrip.
Local Open Scope Z_scope.

(** ** CSV *)
Lemma scan_plain row rest : forall g acc, existsb csv_special g = false -> csv_scan Plain acc row (g ++ rest) = csv_scan Plain (acc ++ g) row rest.
Proof.
  induction g as [|c g IH]; intros acc H; [rewrite app_nil_r; reflexivity|]. cbn [existsb] in H. apply orb_false_iff in H as [H1 H2].
  unfold csv_special in H1. rewrite !orb_false_iff in H1. destruct H1 as [[[E1 E2] E3] E4]. cbn [app csv_scan]. unfold comma, quote in *. rewrite E1, E2, E3.
  rewrite IH by exact H2. rewrite <- app_assoc. reflexivity.
Qed.
Lemma scan_quoted row rest : forall g acc,
  csv_scan Quoted acc row (flat_map (fun c => if eqc c quote then [quote; quote] else [c]) g ++ quote :: rest) = csv_scan QuoteSeen (acc ++ g) row rest.
Proof.
  induction g as [|c g IH]; intros acc; [rewrite app_nil_r; reflexivity|]. cbn [flat_map]. destruct (eqc c quote) eqn:E.
  - apply eqc_eq in E as ->. cbn [app csv_scan]. change (eqc quote """"%char) with true. cbn iota. change (eqc quote ","%char) with false. change (code quote =? 10) with false. cbn iota.
    rewrite IH, <- app_assoc. reflexivity.
  - cbn [app csv_scan]. unfold quote in E. rewrite E. rewrite IH, <- app_assoc. reflexivity.
Qed.
(** after a field the reader is at the separator *)
Lemma scan_field f row sep rest : sep = ","%char \/ sep = chr 10 ->
  csv_scan AtField [] row (csv_field f ++ sep :: rest) =
  (if eqc sep ","%char then csv_scan AtField [] (row ++ [f]) rest
   else match csv_scan AtField [] [] rest with Some rs => Some ((row ++ [f]) :: rs) | None => None end).
Proof.
  intros Hs. unfold csv_field. destruct (needs_quotes f) eqn:E.
  - change ((quote :: flat_map (fun c => if eqc c quote then [quote; quote] else [c]) f ++ [quote]) ++ sep :: rest)
      with (quote :: (flat_map (fun c => if eqc c quote then [quote; quote] else [c]) f ++ [quote]) ++ sep :: rest).
    cbn [csv_scan]. change (eqc quote ","%char) with false. change (code quote =? 10) with false. change (eqc quote """"%char) with true. cbn iota.
    rewrite <- app_assoc. change ([quote] ++ sep :: rest) with (quote :: sep :: rest). rewrite scan_quoted. cbn [app].
    destruct Hs as [-> | ->]; reflexivity.
  - destruct f as [|c f]; [destruct Hs as [-> | ->]; reflexivity|]. unfold needs_quotes in E. rewrite !orb_false_iff in E. destruct E as [[_ E] _].
    cbn [existsb] in E. apply orb_false_iff in E as [E0 E]. unfold csv_special in E0. rewrite !orb_false_iff in E0. destruct E0 as [[[E1 E2] E3] E4]. unfold comma, quote in *.
    cbn [app csv_scan]. rewrite E1, E2, E3. rewrite scan_plain by exact E. cbn [app]. destruct Hs as [-> | ->]; reflexivity.
Qed.
Lemma scan_fields : forall fs row rest, fs <> [] ->
  csv_scan AtField [] row (join [comma] (map csv_field fs) ++ chr 10 :: rest) =
  match csv_scan AtField [] [] rest with Some rs => Some ((row ++ fs) :: rs) | None => None end.
Proof.
  induction fs as [|f fs IH]; intros row rest H; [contradiction|]. destruct fs as [|g fs].
  - cbn [map join]. rewrite scan_field by (right; reflexivity). reflexivity.
  - change (join [comma] (map csv_field (f :: g :: fs))) with (csv_field f ++ [comma] ++ join [comma] (map csv_field (g :: fs))). rewrite <- !app_assoc.
    change ([comma] ++ join [comma] (map csv_field (g :: fs)) ++ chr 10 :: rest) with (","%char :: join [comma] (map csv_field (g :: fs)) ++ chr 10 :: rest).
    rewrite scan_field by (left; reflexivity). change (eqc ","%char ","%char) with true. cbn iota. rewrite IH by discriminate. rewrite <- app_assoc. reflexivity.
Qed.
Lemma csv_round_trip rows : Forall (fun r => r <> []) rows -> read_csv (write_csv rows) = Some rows.
Proof.
  unfold read_csv, write_csv. intros F. induction F as [|r rows H F IH]; [reflexivity|]. cbn [flat_map]. unfold csv_row at 1. rewrite <- app_assoc.
  change ([nline] ++ flat_map csv_row rows) with (chr 10 :: flat_map csv_row rows). rewrite scan_fields by exact H. rewrite IH. reflexivity.
Qed.
(** ** JSON *)
Lemma string_value f s rest : parse_value (S f) (encode_string s ++ rest) = Some (JStr s, rest).
Proof.
  unfold encode_string. change ((quote :: flat_map escape_char s ++ [quote]) ++ rest) with (quote :: (flat_map escape_char s ++ [quote]) ++ rest). rewrite <- app_assoc.
  cbn [parse_value skip_ws]. change (is_ws quote) with false. cbn iota. change (eqc quote quote) with true. cbn iota. change ([quote] ++ rest) with (quote :: rest). rewrite string_parse. reflexivity.
Qed.
Lemma strings_parse : forall l f, l <> [] -> (List.length l + 1 <= f)%nat ->
  parse_items f (join [comma] (map encode_string l) ++ B "]") = Some (map JStr l, []).
Proof.
  induction l as [|s l IH]; intros f Hl Hf; [contradiction|]. destruct f as [|f]; [lia|]. destruct f as [|f]; [cbn in Hf; lia|]. destruct l as [|t l].
  - cbn [map join]. cbn [parse_items]. rewrite string_value. reflexivity.
  - change (join [comma] (map encode_string (s :: t :: l))) with (encode_string s ++ [comma] ++ join [comma] (map encode_string (t :: l))). rewrite <- !app_assoc.
    remember (S f) as g eqn:Eg. cbn [parse_items]. rewrite Eg at 1. rewrite string_value. cbn [app skip_ws]. change (is_ws comma) with false. cbn iota. change (eqc comma ","%char) with true. cbn iota.
    rewrite IH; [reflexivity|discriminate|cbn [List.length] in *; lia].
Qed.
Lemma join_len (sep : bytes) l : (0 < List.length sep)%nat -> (List.length l <= List.length (join sep l) + 1)%nat.
Proof. intros H. induction l as [|x [|y l] IH]; [cbn; lia|cbn; lia|]. change (join sep (x :: y :: l)) with (x ++ sep ++ join sep (y :: l)). rewrite !app_length. cbn [List.length] in *. lia. Qed.
Lemma row_parse r : json_parse (B "[" ++ join [comma] (map encode_string r) ++ B "]") = Some (JArr (map JStr r)).
Proof.
  destruct r as [|s r]; [reflexivity|]. unfold json_parse.
  assert (Lf : (List.length (s :: r) + 3 <= 2 * List.length (B "[" ++ join [comma] (map encode_string (s :: r)) ++ B "]") + 2)%nat).
  { pose proof (join_len [comma] (map encode_string (s :: r)) ltac:(cbn; lia)) as J. rewrite map_length in J. rewrite !app_length. cbn [B list_ascii_of_string List.length] in *. lia. }
  destruct (2 * List.length (B "[" ++ join [comma] (map encode_string (s :: r)) ++ B "]") + 2)%nat as [|f] eqn:Ef; [cbn in Lf; lia|].
  assert (Hd : exists t, join [comma] (map encode_string (s :: r)) = quote :: t) by (destruct r; eexists; reflexivity). destruct Hd as (t & Hd).
  change (B "[" ++ join [comma] (map encode_string (s :: r)) ++ B "]") with ("["%char :: join [comma] (map encode_string (s :: r)) ++ B "]").
  cbn [parse_value skip_ws]. change (is_ws "["%char) with false. cbn iota. change (eqc "["%char quote) with false. change (eqc "["%char "["%char) with true. cbn iota.
  rewrite Hd. cbn [app skip_ws]. change (is_ws quote) with false. cbn iota. change (eqc quote "]"%char) with false. cbn iota.
  change (quote :: t ++ B "]") with ((quote :: t) ++ B "]"). rewrite <- Hd. rewrite strings_parse; [|discriminate|lia]. reflexivity.
Qed.
Lemma escape_nl c : ~ In (chr 10) (escape_char c).
Proof.
  assert (Hx : forall n, 0 <= n < 16 -> hex n <> chr 10) by (intros n H E; pose proof (hex_unhex n H) as X; rewrite E in X; discriminate X).
  unfold escape_char. destruct (eqc c quote || eqc c bslash) eqn:E.
  - apply orb_true_iff in E as [E|E]; apply eqc_eq in E; subst; cbn; intuition discriminate.
  - destruct (code c =? 8); [cbn; intuition discriminate|]. destruct (code c =? 12); [cbn; intuition discriminate|]. destruct (code c =? 10) eqn:E10; [cbn; intuition discriminate|].
    destruct (code c =? 13); [cbn; intuition discriminate|]. destruct (code c =? 9); [cbn; intuition discriminate|].
    pose proof (code_range c) as R. destruct ((code c <? 32) || eqc c "<"%char || eqc c ">"%char || eqc c "&"%char).
    + intros H. cbn [In] in H. assert (R1 : 0 <= code c / 16 < 16) by (split; [apply Z.div_pos; lia|apply Z.div_lt_upper_bound; lia]). assert (R2 := Z.mod_pos_bound (code c) 16 ltac:(lia)).
      destruct H as [H|[H|[H|[H|[H|[H|[]]]]]]]; try discriminate; [exact (Hx _ R1 H)|exact (Hx _ R2 H)].
    + intros [H|[]]. subst c. discriminate E10.
Qed.
Lemma row_nl r : ~ In (chr 10) (B "[" ++ join [comma] (map encode_string r) ++ B "]").
Proof.
  assert (S : forall s, ~ In (chr 10) (encode_string s)).
  { intros s [H|H]; [discriminate|]. apply in_app_or in H as [H|[H|[]]]; [|discriminate]. apply in_flat_map in H as (c & _ & H). exact (escape_nl c H). }
  assert (J : ~ In (chr 10) (join [comma] (map encode_string r))).
  { induction r as [|x [|y r] IH]; [intros []|apply S|]. change (join [comma] (map encode_string (x :: y :: r))) with (encode_string x ++ [comma] ++ join [comma] (map encode_string (y :: r))).
    intros H. apply in_app_or in H as [H|H]; [exact (S _ H)|]. destruct H as [H|H]; [discriminate|exact (IH H)]. }
  change (~ In (chr 10) ("["%char :: join [comma] (map encode_string r) ++ ["]"%char])). intros [H|H]; [discriminate|]. apply in_app_or in H as [H|[H|[]]]; [exact (J H)|discriminate].
Qed.
Lemma json_lines rows : text_lines (write_json rows) = map (fun r => B "[" ++ join [comma] (map encode_string r) ++ B "]") rows.
Proof.
  unfold text_lines, write_json. induction rows as [|r rows IH]; [reflexivity|]. cbn [flat_map map]. unfold json_row at 1.
  replace ((B "[" ++ join [comma] (map encode_string r) ++ B "]" ++ [nline]) ++ flat_map json_row rows)
    with ((B "[" ++ join [comma] (map encode_string r) ++ B "]") ++ chr 10 :: flat_map json_row rows) by (rewrite <- !app_assoc; reflexivity).
  rewrite split_on_cons by (intros c I ->; exact (row_nl r I)). pose proof (split_on_nonnil (chr 10) (flat_map json_row rows)) as N.
  destruct (split_on (chr 10) (flat_map json_row rows)) as [|x l]; [contradiction|]. cbn [removelast]. f_equal. exact IH.
Qed.
Lemma json_round_trip_rows rows : read_json_lines (write_json rows) = Some rows.
Proof.
  unfold read_json_lines. rewrite json_lines. induction rows as [|r rows IH]; [reflexivity|]. cbn [map all_some]. rewrite row_parse, IH.
  assert (S : strings_of (JArr (map JStr r)) = Some r) by (cbn [strings_of]; induction r as [|s r IHr]; [reflexivity|]; cbn [map all_some]; rewrite IHr; reflexivity).
  rewrite S. reflexivity.
Qed.
