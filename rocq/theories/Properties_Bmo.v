(** C62: the BMO reader. *)
From Verif Require Import Base M_Parser L_Dec M_Bmo S_Bmo.

Lemma eqb_sym a b : eqb_bytes a b = eqb_bytes b a.
Proof.
  destruct (eqb_bytes a b) eqn:E, (eqb_bytes b a) eqn:E'; try reflexivity.
  - apply eqb_bytes_eq in E. subst b. rewrite (proj2 (eqb_bytes_eq a a) eq_refl) in E'. discriminate.
  - apply eqb_bytes_eq in E'. subst b. rewrite (proj2 (eqb_bytes_eq a a) eq_refl) in E. discriminate.
Qed.
Lemma split_nonempty sep s : split_on sep s <> [].
Proof. destruct s as [|c s]; cbn; [discriminate|]. destruct (eqc c sep); [discriminate|]. destruct (split_on sep s); discriminate. Qed.
(** ReadBytes takes the first whole line *)
Lemma read_bytes_lines s : forall l found rest, read_bytes s = (l, found, rest) ->
  if found then l <> [] /\ whole_lines s = l :: whole_lines rest /\ (List.length rest < List.length s)%nat else whole_lines s = [].
Proof.
  unfold whole_lines. induction s as [|c s IH]; intros l found rest H; cbn [read_bytes] in H.
  - injection H as <- <- <-. reflexivity.
  - destruct (eqc c nl) eqn:Ec.
    + injection H as <- <- <-. cbn [split_on]. rewrite Ec. split; [discriminate|]. split; [|cbn; lia].
      apply Ascii.eqb_eq in Ec. subst c. assert (N := split_nonempty nl s). destruct (split_on nl s) as [|p ps]; [contradiction|]. reflexivity.
    + destruct (read_bytes s) as [[l0 f0] r0]. injection H as <- <- <-. specialize (IH _ _ _ eq_refl).
      cbn [split_on]. rewrite Ec. assert (N := split_nonempty nl s). destruct (split_on nl s) as [|p ps]; [contradiction|].
      destruct f0.
      * destruct IH as (H1 & H2 & H3). split; [discriminate|]. split; [|cbn; lia]. destruct ps as [|p2 ps]; [discriminate|].
        cbn [removelast map] in *. injection H2 as E1 E2. rewrite E2. f_equal. rewrite <- E1. reflexivity.
      * destruct ps as [|p2 ps]; [reflexivity|]. discriminate.
Qed.
Definition lines_left (b : bmo) : list bytes :=
  let ls := whole_lines (b_rest b) in
  if b_body b then body ls else header_and_body (b_blank b) (if b_header b then ls else without_leading_blanks ls).
(** what is still to be delivered *)
Definition left (b : bmo) : bytes := b_last b ++ concat (lines_left b).
Definition good (b : bmo) : Prop :=
  (b_body b = true -> b_header b = true) /\ (b_header b = false -> b_blank b = false).
Lemma ignored_eq l : existsb (eqb_bytes l) ignored = is_line "<BANKMSGSET><BANKMSGSETV1>" l || is_line "<BANKMSGSETV1><BANKMSGSET>" l.
Proof. cbn [existsb ignored]. rewrite orb_false_r. reflexivity. Qed.
Lemma loop_ok : forall fuel b b' e, (List.length (b_rest b) < fuel)%nat -> good b -> bmo_loop fuel b = (b', e) ->
  match e with
  | AtEof => lines_left b = []
  | Inject => good b' /\ b_last b' <> [] /\ concat (lines_left b) = empty_line ++ left b'
  | Deliver => good b' /\ b_last b' <> [] /\ concat (lines_left b) = left b'
  end.
Proof.
  induction fuel as [|f IH]; intros b b' e Hf [G1 G2] H; [lia|]. cbn [bmo_loop] in H.
  destruct (read_bytes (b_rest b)) as [[l found] rest] eqn:Er. apply read_bytes_lines in Er.
  destruct found; cbn [negb] in H.
  2:{ injection H as <- <-. unfold lines_left. rewrite Er. destruct (b_body b); [reflexivity|]. destruct (b_header b); reflexivity. }
  destruct Er as (Hl & Hw & Hlen). assert (Hfuel : (List.length rest < f)%nat) by lia. clear Hlen Hf.
  destruct (b_header b) eqn:Eh; cbn [negb andb] in H.
  - destruct (b_body b) eqn:Eb; cbn [negb] in H.
    + rewrite ignored_eq in H.
      destruct (is_line "<BANKMSGSET><BANKMSGSETV1>" l || is_line "<BANKMSGSETV1><BANKMSGSET>" l) eqn:Ei.
      * apply IH in H; [|exact Hfuel|split; cbn; congruence].
        assert (E : lines_left b = lines_left (mkBmo rest l true true (b_blank b))).
        { unfold lines_left. rewrite Eb. cbn [b_body b_rest]. rewrite Hw. cbn [body filter]. rewrite Ei. reflexivity. }
        rewrite E. exact H.
      * injection H as <- <-. split; [split; cbn; congruence|]. split; [exact Hl|].
        unfold left, lines_left. rewrite Eb. cbn [b_body b_rest b_last]. rewrite Hw. cbn [body filter]. rewrite Ei. reflexivity.
    + change (eqb_bytes l ofx_line) with (is_line "<OFX>" l) in H. destruct (is_line "<OFX>" l) eqn:Eo.
      * injection H as <- <-. destruct (b_blank b) eqn:Ek; (split; [split; cbn; congruence|]); (split; [exact Hl|]);
        unfold left, lines_left; rewrite Eb, Eh; cbn [b_body b_rest b_last]; rewrite Hw; cbn [header_and_body]; rewrite Eo, Ek; reflexivity.
      * injection H as <- <-. split; [split; cbn; congruence|]. split; [exact Hl|].
        unfold left, lines_left. rewrite Eb, Eh. cbn [b_body b_rest b_last b_header b_blank]. rewrite Hw. cbn [header_and_body]. rewrite Eo. reflexivity.
  - assert (Eb : b_body b = false) by (destruct (b_body b); [discriminate (G1 eq_refl)|reflexivity]).
    assert (Ek := G2 eq_refl). change (eqb_bytes l empty_line) with (is_blank l) in H. rewrite Eb in H. cbn [negb] in H.
    destruct (is_blank l) eqn:Ebl.
    + apply IH in H; [|exact Hfuel|split; cbn; congruence].
      assert (E : lines_left b = lines_left (mkBmo rest l false false (b_blank b))).
      { unfold lines_left. rewrite Eb, Eh. cbn [b_body b_rest b_header b_blank]. rewrite Hw. cbn [without_leading_blanks]. rewrite Ebl. reflexivity. }
      rewrite E. exact H.
    + change (eqb_bytes l ofx_line) with (is_line "<OFX>" l) in H. destruct (is_line "<OFX>" l) eqn:Eo.
      * injection H as <- <-. rewrite Ek. split; [split; cbn; congruence|]. split; [exact Hl|].
        unfold left, lines_left. rewrite Eb, Eh. cbn [b_body b_rest b_last]. rewrite Hw. cbn [without_leading_blanks]. rewrite Ebl. cbn [header_and_body]. rewrite Eo, Ek. reflexivity.
      * injection H as <- <-. split; [split; cbn; congruence|]. split; [exact Hl|].
        unfold left, lines_left. rewrite Eb, Eh. cbn [b_body b_rest b_last b_header b_blank]. rewrite Hw. cbn [without_leading_blanks]. rewrite Ebl. cbn [header_and_body]. rewrite Eo, Ebl. reflexivity.
Qed.
(** one read: delivers the next bytes of what is left, at least one, or finds the end *)
Lemma read_ok size b out eof b' : (0 < size)%nat -> good b -> bmo_read size b = (out, eof, b') ->
  if eof then left b = [] /\ out = [] else good b' /\ out <> [] /\ left b = out ++ left b'.
Proof.
  intros Hs G H. unfold bmo_read in H. destruct (b_last b) as [|c0 r0] eqn:El.
  - destruct (bmo_loop (S (List.length (b_rest b))) b) as [b1 e] eqn:E. apply loop_ok in E; [|lia|exact G]. destruct e.
    + injection H as <- <- <-. split; [|reflexivity]. unfold left. rewrite El, E. reflexivity.
    + injection H as <- <- <-. destruct E as (G1 & _ & E). split; [exact G1|]. split; [destruct size; [lia|discriminate]|].
      unfold left at 1. rewrite El, E. destruct size; [lia|]. destruct size; reflexivity.
    + injection H as <- <- <-. destruct E as (G1 & Hne & E). split; [exact G1|]. split.
      * destruct size; [lia|]. destruct (b_last b1); [contradiction|discriminate].
      * unfold left at 1. rewrite El, E. unfold left. cbn [b_last app]. rewrite app_assoc, firstn_skipn. reflexivity.
  - injection H as <- <- <-. split; [exact G|]. split.
    + destruct size; [lia|]. discriminate.
    + unfold left. cbn [b_last]. rewrite El, app_assoc, firstn_skipn. reflexivity.
Qed.
Lemma drain_ok size : (forall i, (0 < size i)%nat) -> forall fuel i b, good b -> (List.length (left b) < fuel)%nat ->
  drain fuel size i b = Some (left b).
Proof.
  intros Hs. induction fuel as [|f IH]; intros i b G Hf; [lia|]. cbn [drain].
  destruct (bmo_read (size i) b) as [[out eof] b'] eqn:E. apply read_ok in E; [|apply Hs|exact G]. destruct eof.
  - destruct E as [-> ->]. reflexivity.
  - destruct E as (G' & Hne & E). rewrite IH; [cbn; rewrite E; reflexivity|exact G'|].
    rewrite E, app_length in Hf. destruct out; [contradiction|]. cbn in Hf. lia.
Qed.
(** for every input and all sizes of the reads (none of them zero): reading until the end delivers the repaired text *)
Theorem C62_every_read_size_partial : forall text (size : nat -> nat), (forall i, (0 < size i)%nat) ->
  exists n, forall fuel, (n <= fuel)%nat -> drain fuel size 0 (new_bmo text) = Some (repaired text).
Proof.
  intros text size Hs. exists (S (List.length (repaired text))). intros fuel Hf.
  assert (E : left (new_bmo text) = repaired text) by reflexivity. rewrite <- E.
  apply drain_ok; [exact Hs|split; cbn; congruence|rewrite E; lia].
Qed.
Print Assumptions C62_every_read_size_partial.
(** a read into an empty buffer at the wrong moment loses the added blank line *)
Theorem C62_every_read_size_refuted : ~ (forall text (size : nat -> nat) fuel out,
  drain fuel size 0 (new_bmo text) = Some out -> out = repaired text).
Proof.
  intros H. set (text := B "OFXHEADER:100" ++ [nl] ++ B "<OFX>" ++ [nl]).
  specialize (H text (fun i => if (i =? 1)%nat then 0%nat else 100%nat) 9%nat _ eq_refl). vm_compute in H. discriminate.
Qed.
Print Assumptions C62_every_read_size_refuted.
(** and a last line without newline is never delivered, although it may hold the end of the document *)
Theorem C62_last_line_lost : forall text tail, ~ In nl tail -> repaired (text ++ [nl] ++ tail) = repaired (text ++ [nl]).
Proof.
  intros text tail Ht. unfold repaired. f_equal. f_equal. f_equal. unfold whole_lines. f_equal.
  assert (Hs : forall t, ~ In nl t -> split_on nl t = [t]).
  { induction t as [|c t IH]; intros Hn; [reflexivity|]. cbn [split_on]. destruct (eqc c nl) eqn:E; [apply Ascii.eqb_eq in E; exfalso; apply Hn; left; exact E|].
    rewrite IH by (intros C; apply Hn; right; exact C). reflexivity. }
  induction text as [|c text IH].
  - cbn [app split_on]. change (eqc nl nl) with true. cbn iota. rewrite (Hs tail Ht). reflexivity.
  - cbn [app split_on]. cbn [app] in IH. destruct (eqc c nl).
    + assert (N1 := split_nonempty nl (text ++ nl :: tail)). assert (N2 := split_nonempty nl (text ++ [nl])).
      destruct (split_on nl (text ++ nl :: tail)) as [|p ps]; [contradiction|]. destruct (split_on nl (text ++ [nl])) as [|q qs]; [contradiction|].
      change (removelast ([] :: p :: ps)) with ([] :: removelast (p :: ps)). rewrite IH. reflexivity.
    + assert (N1 := split_nonempty nl (text ++ nl :: tail)). assert (N2 := split_nonempty nl (text ++ [nl])).
      assert (T1 : (1 < List.length (split_on nl (text ++ nl :: tail)))%nat).
      { clear. induction text as [|d text IH]; cbn [app split_on]; [change (eqc nl nl) with true; cbn iota; assert (N := split_nonempty nl tail); destruct (split_on nl tail); [contradiction|cbn [List.length]; lia]|].
        assert (N := split_nonempty nl (text ++ nl :: tail)). destruct (eqc d nl); destruct (split_on nl (text ++ nl :: tail)); cbn [List.length] in *; try contradiction; lia. }
      assert (T2 : (1 < List.length (split_on nl (text ++ [nl])))%nat).
      { clear. induction text as [|d text IH]; cbn [app split_on]; [cbn; lia|].
        assert (N := split_nonempty nl (text ++ [nl])). destruct (eqc d nl); destruct (split_on nl (text ++ [nl])); cbn [List.length] in *; try contradiction; lia. }
      destruct (split_on nl (text ++ nl :: tail)) as [|p [|p2 ps]]; [contradiction|cbn [List.length] in T1; lia|].
      destruct (split_on nl (text ++ [nl])) as [|q [|q2 qs]]; [contradiction|cbn [List.length] in T2; lia|].
      cbn [removelast] in *. injection IH as -> IH. rewrite IH. reflexivity.
Qed.
Print Assumptions C62_last_line_lost.
(** a correct file is not changed: header, blank line, body without invalid lines *)
Theorem C62_correct_unchanged : forall header b, 
  (forall l, In l (header ++ b) -> exists t, l = t ++ [nl] /\ ~ In nl t) ->
  (forall l, In l header -> is_blank l = false /\ is_line "<OFX>" l = false) -> header <> [] -> body b = b ->
  let text := concat (header ++ [[nl]] ++ (B "<OFX>" ++ [nl]) :: b) in repaired text = text.
Proof.
  intros header b Hl Hh Hne Hb text. unfold repaired.
  assert (Ew : whole_lines text = header ++ [[nl]] ++ (B "<OFX>" ++ [nl]) :: b).
  { subst text.
    assert (Hall : forall l, In l (header ++ [[nl]] ++ (B "<OFX>" ++ [nl]) :: b) -> exists t, l = t ++ [nl] /\ ~ In nl t).
    { intros l Hin. apply in_app_or in Hin as [Hin|[<-|[<-|Hin]]].
      - apply Hl. apply in_or_app. left. exact Hin.
      - exists []. split; [reflexivity|intros []].
      - exists (B "<OFX>"). split; [reflexivity|]. cbn. intuition discriminate.
      - apply Hl. apply in_or_app. right. exact Hin. }
    revert Hall. generalize (header ++ [[nl]] ++ (B "<OFX>" ++ [nl]) :: b). clear. intros ls Hall.
    induction ls as [|l ls IH]; [reflexivity|]. destruct (Hall l (or_introl eq_refl)) as (t & -> & Ht).
    cbn [concat]. rewrite <- app_assoc. cbn [app]. rewrite <- IH at 2 by (intros; apply Hall; right; assumption). clear -Ht.
    unfold whole_lines. set (r := concat ls). clearbody r. induction t as [|c t IHt].
    - cbn [app split_on]. change (eqc nl nl) with true. cbn iota. assert (N := split_nonempty nl r). destruct (split_on nl r); [contradiction|]. reflexivity.
    - cbn [app split_on]. destruct (eqc c nl) eqn:E; [apply Ascii.eqb_eq in E; exfalso; apply Ht; left; exact E|].
      assert (Ht' : ~ In nl t) by (intros C; apply Ht; right; exact C). specialize (IHt Ht').
      destruct (split_on nl (t ++ nl :: r)) as [|p [|p2 ps]]; [discriminate|discriminate|].
      cbn [removelast map] in *. injection IHt as E1 E2. rewrite E2. f_equal. cbn [app]. f_equal. exact E1. }
  rewrite Ew. subst text. f_equal.
  destruct header as [|h header]; [contradiction|]. cbn [app without_leading_blanks]. destruct (Hh h (or_introl eq_refl)) as [-> _].
  change (h :: header ++ [nl] :: (B "<OFX>" ++ [nl]) :: b) with ((h :: header) ++ [nl] :: (B "<OFX>" ++ [nl]) :: b).
  assert (G : forall hs s0, (forall l, In l hs -> is_blank l = false /\ is_line "<OFX>" l = false) ->
    header_and_body s0 (hs ++ [nl] :: (B "<OFX>" ++ [nl]) :: b) = hs ++ [nl] :: (B "<OFX>" ++ [nl]) :: b).
  { clear -Hb. induction hs as [|x hs IH]; intros s0 Hh.
    - cbn [app header_and_body]. change (is_line "<OFX>" [nl]) with false. cbn iota. change (is_blank [nl]) with true. rewrite orb_true_r.
      change (is_line "<OFX>" (B "<OFX>" ++ [nl])) with true. cbn iota. rewrite Hb. reflexivity.
    - cbn [app header_and_body]. destruct (Hh x (or_introl eq_refl)) as [Hx ->]. f_equal. apply IH. intros; apply Hh; right; assumption. }
  apply (G (h :: header) false Hh).
Qed.
Print Assumptions C62_correct_unchanged.
Example C62_example : let ls l := concat (map (fun s => B s ++ [nl]) l) in
  drain 99 (fun _ => 7%nat) 0 (new_bmo (ls [""; "OFXHEADER:100"; "<OFX>"; "<BANKMSGSET><BANKMSGSETV1>"; "<X>"; ""; "</OFX>"]%string))
  = Some (ls ["OFXHEADER:100"; ""; "<OFX>"; "<X>"; ""; "</OFX>"]%string).
Proof. vm_compute. reflexivity. Qed.
