(** Reading back written lines. *)
From Verif Require Import Base M_Amount M_Regex M_Date M_Parser M_Writer S_Decimal S_Date S_DateText S_Ledger
  L_Dec L_Amount L_Regex L_Date L_DateText.

(** [cbn] leaves character tests alone *)
Arguments eqc : simpl never. Arguments code : simpl never. Arguments is_digit : simpl never. Arguments is_alpha : simpl never.
Arguments is_word : simpl never. Arguments is_space : simpl never. Arguments is_acc : simpl never. Arguments is_blank_char : simpl never.

(** ** character classes *)
Ltac all_chars :=
  let c := fresh "c" in intros c;
  destruct c as [b0 b1 b2 b3 b4 b5 b6 b7]; destruct b0, b1, b2, b3, b4, b5, b6, b7; vm_compute; try reflexivity; try discriminate.
Lemma space_not_acc : forall c, is_space c = true -> is_acc c = false. Proof. all_chars. Qed.
Lemma space_not_word : forall c, is_space c = true -> is_word c = false. Proof. all_chars. Qed.
Lemma space_not_digit : forall c, is_space c = true -> is_digit c = false. Proof. all_chars. Qed.
Lemma space_not_dot : forall c, is_space c = true -> eqc "."%char c = false. Proof. all_chars. Qed.
Lemma space_not_colon : forall c, is_space c = true -> eqc ":"%char c = false. Proof. all_chars. Qed.
Lemma space_not_semi : forall c, is_space c = true -> eqc ";"%char c = false. Proof. all_chars. Qed.
Lemma space_not_alpha : forall c, is_space c = true -> is_alpha c = false. Proof. all_chars. Qed.
Lemma alpha_not_space : forall c, is_alpha c = true -> is_space c = false. Proof. all_chars. Qed.
Lemma digit_not_space : forall c, is_digit c = true -> is_space c = false. Proof. all_chars. Qed.
Lemma digit_not_minus : forall c, is_digit c = true -> eqc "-"%char c = false. Proof. all_chars. Qed.
Lemma word_not_space : forall c, is_word c = true -> is_space c = false. Proof. all_chars. Qed.
Lemma word_not_paren : forall c, is_word c = true -> eqc ")"%char c = false. Proof. all_chars. Qed.
Lemma colon_not_acc : is_acc ":"%char = false. Proof. reflexivity. Qed.

Lemma spaces_rep n : forallb is_space (rep " "%char n) = true.
Proof. unfold rep. induction n; [reflexivity|]. cbn. exact IHn. Qed.

(** ** account names *)
Arguments name_char : simpl never. Arguments space_or_tab : simpl never.
Lemma name_char_acc : forall c, name_char c = is_acc c. Proof. all_chars. Qed.
Lemma name_chars_acc r : forallb name_char r = true -> forallb is_acc r = true.
Proof. intros H. rewrite forallb_forall in *. intros c Hc. rewrite <- name_char_acc. auto. Qed.
Lemma space_or_tab_blank : forall c, space_or_tab c = is_blank_char c. Proof. all_chars. Qed.
Lemma takes_seg s (P : bytes -> Prop) : seg_ok s -> (forall rest, P rest -> hd_not is_acc rest) -> takes rx_seg s [] P.
Proof.
  intros (c & r & -> & Hc & Hr) HP. apply name_chars_acc in Hr. unfold rx_seg.
  eapply takes_eq; [eapply takes_seq with (P1 := fun _ => True) (P2 := P)| |].
  - apply takes_set, Hc.
  - apply takes_star; [exact Hr|exact HP].
  - intros; exact I.
  - reflexivity.
  - reflexivity.
Qed.
Definition name_end (rest : bytes) : Prop := hd_not (fun c => is_acc c || eqc ":"%char c) rest.
Lemma name_end_acc rest : name_end rest -> hd_not is_acc rest.
Proof. destruct rest as [|c r]; cbn; [auto|]. intros H. apply orb_false_iff in H. tauto. Qed.
Lemma takes_segs segs : Forall seg_ok segs ->
  takes (RStar (RSeq (rchar ":"%char) rx_seg)) (concat (map (fun s => ":"%char :: s) segs)) [] name_end.
Proof.
  induction 1 as [|s segs Hs _ IH].
  - apply takes_star_nil. intros rest HR. apply fails_seq_l, fails_set.
    destruct rest as [|c r]; cbn in *; [exact I|]. apply orb_false_iff in HR. tauto.
  - cbn [map concat].
    eapply takes_eq; [eapply takes_star_cons with (t1 := ":"%char :: s) (c1 := [])| |]; [discriminate| |exact IH| |reflexivity|reflexivity].
    + eapply takes_eq; [eapply takes_seq with (t1 := [":"%char]) (t2 := s) (P1 := fun _ => True)| |].
      * apply takes_char.
      * apply takes_seg; [exact Hs|]. intros rest HR. exact HR.
      * intros; exact I.
      * reflexivity.
      * reflexivity.
    + intros rest HR. destruct segs; [apply name_end_acc, HR|reflexivity].
Qed.
Lemma join_cons s segs : join (B ":") (s :: segs) = s ++ concat (map (fun s => ":"%char :: s) segs).
Proof.
  revert s. induction segs as [|s' segs IH]; intros s; [cbn; rewrite app_nil_r; reflexivity|].
  change (join (B ":") (s :: s' :: segs)) with (s ++ B ":" ++ join (B ":") (s' :: segs)). rewrite IH. reflexivity.
Qed.
Lemma takes_account n : name_ok n -> takes rx_account n [("account"%string, n)] name_end.
Proof.
  intros (segs & Hn & Hs & ->). unfold rx_account. apply takes_grp.
  destruct segs as [|s segs]; [congruence|]. inversion Hs as [|? ? H1 H2]; subst. rewrite join_cons.
  change (@nil (string * bytes)) with (@nil (string * bytes) ++ []).
  eapply takes_seq; [|apply takes_segs, H2|].
  - apply takes_seg; [exact H1|]. intros rest HR. exact HR.
  - intros rest HR. destruct segs; [apply name_end_acc, HR|reflexivity].
Qed.
Lemma name_ok_head n : name_ok n -> exists c r, n = c :: r /\ is_alpha c = true.
Proof.
  intros (segs & Hn & Hs & ->). destruct segs as [|s segs]; [congruence|]. inversion Hs as [|? ? (c & r & -> & Hc & _) H2]; subst.
  rewrite join_cons. cbn [app]. eauto.
Qed.

(** ** amounts *)
Definition rx_amount_n (a d c : string) : rx :=
  rseq [RGrp a (rseq [ROpt (rchar "-"%char); rplus d_; ROpt (RGrp d (RSeq (rchar "."%char) (rplus d_)))]);
        rplus s_; RGrp c (RSeq (RSet is_alpha) (RStar w_))].
Definition lit_caps (d : string) (l : literal) : caps :=
  match l_frac l with [] => [] | f => [(d, "."%char :: map digit_char f)] end.
Lemma takes_id c i : id_ok i -> takes (RGrp c (RSeq (RSet is_alpha) (RStar w_))) i [(c, i)] (hd_not is_word).
Proof.
  intros (x & r & -> & Hx & Hr). apply takes_grp.
  eapply takes_eq; [eapply takes_seq with (P1 := fun _ => True)| |].
  - apply takes_set, Hx.
  - apply takes_star; [exact Hr|]. intros rest HR. exact HR.
  - intros; exact I.
  - reflexivity.
  - reflexivity.
Qed.
Lemma takes_digits ds (P : bytes -> Prop) : digits_ok ds -> ds <> [] -> (forall rest, P rest -> hd_not is_digit rest) ->
  takes (rplus d_) (map digit_char ds) [] P.
Proof.
  intros Hok Hn HP. apply takes_plus; [destruct ds; [congruence|discriminate]|apply map_digits_is_digit, Hok|exact HP].
Qed.
Definition num_end (rest : bytes) : Prop := hd_not (fun c => is_digit c || eqc "."%char c) rest.
Lemma num_end_digit rest : num_end rest -> hd_not is_digit rest.
Proof. destruct rest as [|c r]; cbn; [auto|]. intros H. apply orb_false_iff in H. tauto. Qed.
Lemma digits_head ds : digits_ok ds -> ds <> [] -> hd_is is_digit (map digit_char ds).
Proof. intros H Hn. destruct ds as [|d r]; [congruence|]. cbn. apply digit_char_is_digit. inversion H; assumption. Qed.
Definition frac_text (l : literal) : bytes := match l_frac l with [] => [] | f => "."%char :: map digit_char f end.
Lemma takes_frac d l : digits_ok (l_frac l) ->
  takes (ROpt (RGrp d (RSeq (rchar "."%char) (rplus d_)))) (frac_text l) (lit_caps d l) num_end.
Proof.
  intros Hf. unfold frac_text, lit_caps. destruct (l_frac l) as [|f fr].
  - apply takes_opt_none. intros rest HR. apply fails_grp, fails_seq_l, fails_set.
    destruct rest as [|c r]; cbn in *; [exact I|]. apply orb_false_iff in HR. tauto.
  - apply takes_opt_some, takes_grp.
    eapply takes_eq; [eapply takes_seq with (t1 := ["."%char]) (P1 := fun _ => True)| |].
    + apply takes_char.
    + apply takes_digits; [exact Hf|discriminate|]. apply num_end_digit.
    + intros; exact I.
    + reflexivity.
    + reflexivity.
Qed.
Lemma takes_lit_text d l : lit_ok l ->
  takes (rseq [ROpt (rchar "-"%char); rplus d_; ROpt (RGrp d (RSeq (rchar "."%char) (rplus d_)))])
    (lit_text l) (lit_caps d l) num_end.
Proof.
  intros (Hi & Hf & Hn). assert (Hh := digits_head _ Hi Hn). cbn [rseq].
  eapply takes_eq; [eapply takes_seq with (t1 := if l_neg l then B "-" else []) (P1 := hd_is is_digit) (c1 := []);
    [|eapply takes_seq with (t2 := frac_text l) (P1 := hd_not is_digit) (c1 := []); [|apply takes_frac, Hf|]|]| |].
  - destruct (l_neg l).
    + apply takes_opt_some. apply takes_char.
    + apply takes_opt_none. intros rest HR. apply fails_set. eapply hd_is_not; [|exact HR]. apply digit_not_minus.
  - apply takes_digits; [exact Hi|exact Hn|auto].
  - intros rest HR. unfold frac_text. destruct (l_frac l); [apply num_end_digit, HR|reflexivity].
  - intros rest HR. rewrite <- app_assoc. apply hd_is_app, Hh.
  - unfold lit_text, frac_text. destruct (l_frac l); reflexivity.
  - rewrite !app_nil_r. reflexivity.
Qed.
Lemma space_num_end s : hd_is is_space s -> num_end s.
Proof. apply hd_is_not. intros c Hc. rewrite space_not_digit, space_not_dot by exact Hc. reflexivity. Qed.
Lemma takes_spaces sp (P : bytes -> Prop) : sp <> [] -> forallb is_space sp = true -> (forall rest, P rest -> hd_not is_space rest) ->
  takes (rplus s_) sp [] P.
Proof. intros. apply takes_plus; assumption. Qed.
Lemma takes_amount a d c l sp i : lit_ok l -> sp <> [] -> forallb is_space sp = true -> id_ok i ->
  takes (rx_amount_n a d c) (lit_text l ++ sp ++ i) ((c, i) :: (a, lit_text l) :: lit_caps d l) (hd_not is_word).
Proof.
  intros Hl Hs1 Hs2 Hid. unfold rx_amount_n.
  eapply takes_eq; [eapply takes_seq with (P1 := num_end); [apply takes_grp, takes_lit_text, Hl|
     eapply takes_seq with (P1 := hd_is is_alpha) (c1 := []); [apply takes_spaces; [exact Hs1|exact Hs2|]|apply takes_id, Hid|]|]| |].
  - intros rest HR. eapply hd_is_not; [|exact HR]. apply alpha_not_space.
  - intros rest HR. destruct Hid as (x & r & -> & Hx & _). exact Hx.
  - intros rest HR. destruct sp as [|x sp]; [congruence|]. cbn in Hs2. apply andb_true_iff in Hs2 as [Hx _]. apply space_num_end. exact Hx.
  - reflexivity.
  - reflexivity.
Qed.
Lemma lit_head l : lit_ok l -> hd_is (fun c => is_digit c || eqc c "-"%char) (lit_text l).
Proof.
  intros (Hi & _ & Hn). unfold lit_text. destruct (l_neg l); [reflexivity|]. cbn [app].
  apply hd_is_app. destruct (l_int l) as [|d r]; [congruence|]. cbn [map hd_is]. inversion Hi; subst. rewrite (digit_char_is_digit d) by assumption. reflexivity.
Qed.

(** ** posting lines *)
Definition rx_bal : rx := rseq [rplus s_; rchar "="%char; rplus s_; rx_amount_n "amount2" "decimals2" "commodity2"].
Definition rx_short : rx := RSeq (RStar s_) (semi_note "shortNote").
Lemma postingREX_eq : postingREX =
  RAlt (rseq [rplus s_; rx_account; ROpt (rseq [rplus s_; rx_amount_n "amount1" "decimals1" "commodity1"; ROpt rx_bal]); ROpt rx_short])
       (RSeq (rplus s_) (semi_note "note")).
Proof. reflexivity. Qed.

Lemma takes_any n (P : bytes -> Prop) : line_text n -> (forall rest, P rest -> rest = []) -> takes (RStar any_) n [] P.
Proof.
  intros H HP. apply takes_star.
  - apply forallb_forall. intros c Hc. unfold line_text in H. rewrite Forall_forall in H. apply H in Hc. unfold any_. lia.
  - intros rest HR. rewrite (HP _ HR). exact I.
Qed.
Definition at_end (s : bytes) : Prop := s = [].
Lemma takes_semi nm n : line_text n -> takes (semi_note nm) (B "; " ++ n) [(nm, n)] at_end.
Proof.
  intros H. unfold semi_note. cbn [rseq].
  eapply takes_eq; [eapply takes_seq with (t1 := [";"%char]) (c1 := []) (P1 := fun _ => True);
    [apply takes_char|eapply takes_seq with (t1 := [" "%char]) (c1 := []) (P1 := fun _ => True);
      [apply takes_opt_some, takes_char|apply takes_grp, takes_any; [exact H|]|]|]| |].
  - intros rest HR. exact HR.
  - intros; exact I.
  - intros; exact I.
  - reflexivity.
  - reflexivity.
Qed.
(** optional short note: [None] nothing follows, [Some n] " ; n" follows *)
Definition note_text (o : option bytes) : bytes := match o with None => [] | Some n => B " ; " ++ n end.
Definition note_caps (o : option bytes) : caps := match o with None => [] | Some n => [("shortNote"%string, n)] end.
Lemma takes_short o : (forall n, o = Some n -> line_text n) -> takes (ROpt rx_short) (note_text o) (note_caps o) at_end.
Proof.
  intros H. destruct o as [n|]; cbn [note_text note_caps].
  - apply takes_opt_some. unfold rx_short.
    eapply takes_eq; [eapply takes_seq with (t1 := [" "%char]) (c1 := []) (P1 := hd_not is_space);
      [apply takes_star; [reflexivity|auto]|apply takes_semi, H; reflexivity|]| |].
    + intros; reflexivity.
    + reflexivity.
    + reflexivity.
  - apply takes_opt_none. intros rest ->. intros R cs k. reflexivity.
Qed.
Lemma fails_bal_short o : fails rx_bal (note_text o ++ []).
Proof. intros R cs k. rewrite app_nil_r. destruct o as [n|]; reflexivity. Qed.
(** optional balance *)
Definition bal_text (o : option (literal * bytes)) : bytes :=
  match o with None => [] | Some (l, i) => B " = " ++ lit_text l ++ B " " ++ i end.
Definition bal_caps (o : option (literal * bytes)) : caps :=
  match o with None => [] | Some (l, i) => ("commodity2"%string, i) :: ("amount2"%string, lit_text l) :: lit_caps "decimals2" l end.
Definition tail_ok (s : bytes) : Prop := exists o, s = note_text o.
Lemma tail_not_word s : tail_ok s -> hd_not is_word s.
Proof. intros (o & ->). destruct o; reflexivity. Qed.
Lemma takes_bal o : (forall l i, o = Some (l, i) -> lit_ok l /\ id_ok i) -> takes (ROpt rx_bal) (bal_text o) (bal_caps o) tail_ok.
Proof.
  intros H. destruct o as [[l i]|]; cbn [bal_text bal_caps].
  - destruct (H _ _ eq_refl) as [Hl Hi]. apply takes_opt_some. unfold rx_bal. cbn [rseq].
    eapply takes_eq; [eapply takes_seq with (t1 := [" "%char]) (c1 := []) (P1 := hd_not is_space);
      [apply takes_spaces; [discriminate|reflexivity|auto]|
       eapply takes_seq with (t1 := ["="%char]) (c1 := []) (P1 := fun _ => True);
        [apply takes_char|eapply takes_seq with (t1 := [" "%char]) (c1 := []) (P1 := hd_not is_space);
          [apply takes_spaces; [discriminate|reflexivity|auto]|
           eapply takes_weaken; [apply tail_not_word|apply (takes_amount _ _ _ l (B " ") i); [exact Hl|discriminate|reflexivity|exact Hi]]|]|]|]| |].
    + intros rest HR. rewrite <- app_assoc. eapply hd_is_not; [|apply hd_is_app, lit_head, Hl].
      intros c Hc. apply orb_true_iff in Hc as [Hc|Hc]; [apply digit_not_space, Hc|]. apply eqc_eq in Hc. subst c. reflexivity.
    + intros; exact I.
    + intros; reflexivity.
    + reflexivity.
    + rewrite !app_nil_r. reflexivity.
  - apply takes_opt_none. intros rest (o & ->). rewrite <- (app_nil_r (note_text o)). apply fails_bal_short.
Qed.
(** the whole posting line: spaces, account, spaces, amount, space, id, balance, note *)
Definition pline (sp1 acc sp2 : bytes) (l : literal) (i : bytes) (bal : option (literal * bytes)) (nt : option bytes) : bytes :=
  sp1 ++ acc ++ sp2 ++ (lit_text l ++ B " " ++ i) ++ bal_text bal ++ note_text nt.
Definition pcaps (acc : bytes) (l : literal) (i : bytes) (bal : option (literal * bytes)) (nt : option bytes) : caps :=
  note_caps nt ++ bal_caps bal ++ (("commodity1"%string, i) :: ("amount1"%string, lit_text l) :: lit_caps "decimals1" l) ++ [("account"%string, acc)].
Lemma app_not_word a b : hd_not is_word a -> hd_not is_word b -> hd_not is_word (a ++ b).
Proof. destruct a; cbn; auto. Qed.
Lemma search_pline sp1 acc sp2 l i bal nt :
  sp1 <> [] -> forallb is_space sp1 = true -> sp2 <> [] -> forallb is_space sp2 = true ->
  name_ok acc -> lit_ok l -> id_ok i -> (forall l i, bal = Some (l, i) -> lit_ok l /\ id_ok i) ->
  (forall n, nt = Some n -> line_text n) ->
  rsearch postingREX (pline sp1 acc sp2 l i bal nt) = Some ([], pcaps acc l i bal nt).
Proof.
  intros Hs1 Hs1' Hs2 Hs2' Ha Hl Hi Hb Hn. rewrite postingREX_eq.
  assert (Hspace : hd_is is_space sp2).
  { destruct sp2 as [|x r]; [congruence|]. cbn in Hs2'. apply andb_true_iff in Hs2' as [Hx _]. exact Hx. }
  rewrite <- (app_nil_r (pline sp1 acc sp2 l i bal nt)).
  apply takes_search with (P := at_end); [|reflexivity]. apply takes_alt_l. unfold pline, pcaps.
  eapply takes_eq; [eapply takes_seq with (t1 := sp1) (c1 := []) (P1 := hd_is is_alpha);
    [apply takes_spaces; [exact Hs1|exact Hs1'|]|
     eapply takes_seq with (P1 := name_end); [apply takes_account, Ha|
      eapply takes_seq with (P1 := tail_ok); [|apply (takes_short nt), Hn|]|]|]| |].
  - intros rest HR. eapply hd_is_not; [|exact HR]. apply alpha_not_space.
  - apply takes_opt_some. cbn [rseq].
    eapply takes_seq with (t1 := sp2) (c1 := []) (P1 := hd_not is_space);
     [apply takes_spaces; [exact Hs2|exact Hs2'|auto]|
      eapply takes_seq with (P1 := hd_not is_word); [apply (takes_amount _ _ _ l (B " ") i); [exact Hl|discriminate|reflexivity|exact Hi]|apply (takes_bal bal), Hb|]|].
    + intros rest HR. destruct bal as [[l' i']|]; [reflexivity|]. apply tail_not_word, HR.
    + intros rest HR. rewrite <- !app_assoc. eapply hd_is_not; [|apply hd_is_app, lit_head, Hl].
      intros c Hc. apply orb_true_iff in Hc as [Hc|Hc]; [apply digit_not_space, Hc|]. apply eqc_eq in Hc. subst c. reflexivity.
  - intros rest ->. exists nt. apply app_nil_r.
  - intros rest HR. rewrite <- !app_assoc. eapply hd_is_not; [|apply hd_is_app, Hspace].
    intros c Hc. rewrite space_not_acc, space_not_colon by exact Hc. reflexivity.
  - intros rest HR. destruct (name_ok_head _ Ha) as (c & r & -> & Hc). rewrite <- app_assoc. cbn. exact Hc.
  - rewrite <- !app_assoc. reflexivity.
  - rewrite !app_nil_r, <- !app_assoc. reflexivity.
Qed.
(** a note line *)
Lemma search_nline sp n : sp <> [] -> forallb is_space sp = true -> line_text n ->
  rsearch postingREX (sp ++ B "; " ++ n) = Some ([], [("note"%string, n)]).
Proof.
  intros Hs1 Hs2 Hn. rewrite postingREX_eq. rewrite <- (app_nil_r (sp ++ B "; " ++ n)).
  apply takes_search with (P := at_end); [|reflexivity].
  apply takes_alt_r.
  - intros rest ->. rewrite app_nil_r. cbn [rseq]. apply fails_plus_seq. intros run rest E Hr1 Hr2.
    apply fails_seq_l, fails_grp, fails_seq_l, fails_seq_l, fails_set.
    (* rest starts inside the spaces or at the ';' *)
    clear -E Hs2 Hr2. revert sp Hs2 E. induction run as [|c run IH]; intros sp Hs2 E.
    + cbn in E. subst rest. destruct sp as [|x sp]; cbn; [reflexivity|]. cbn in Hs2. apply andb_true_iff in Hs2 as [Hx _]. apply space_not_alpha, Hx.
    + cbn in Hr2. apply andb_true_iff in Hr2 as [Hc Hr2]. destruct sp as [|x sp].
      * cbn in E. injection E as <- _. discriminate.
      * cbn in E. injection E as <- E. cbn in Hs2. apply andb_true_iff in Hs2 as [_ Hs2]. apply (IH Hr2 sp Hs2 E).
  - eapply takes_eq; [eapply takes_seq with (t1 := sp) (c1 := []) (P1 := hd_not is_space);
     [apply takes_spaces; [exact Hs1|exact Hs2|auto]|apply takes_semi, Hn|]| |].
    + intros; reflexivity.
    + reflexivity.
    + reflexivity.
Qed.

(** ** transaction header lines *)
Definition rx_code : rx := rseq [rplus s_; rchar "("%char; RGrp "code" (rplus w_); rchar ")"%char].
Definition not_semi (c : ascii) : bool := negb (eqc c ";"%char).
Definition rx_desc : rx := RSeq (rplus s_) (RGrp "description" (RSeq S_ (RStar (RSet not_semi)))).
Lemma transactionREX_eq : transactionREX =
  RSeq rx_date (RSeq (ROpt rx_code) (RSeq (ROpt rx_desc) (ROpt (semi_note "shortNote")))).
Proof. reflexivity. Qed.
Lemma fails_grp_plus_seq n f b s :
  (forall run rest, s = run ++ rest -> run <> [] -> forallb f run = true -> fails b rest) ->
  fails (RSeq (RGrp n (rplus (RSet f))) b) s.
Proof.
  intros H R cs k.
  cbn [rmatch rplus]. destruct s as [|c s]; [reflexivity|]. destruct (f c) eqn:Hc; [|reflexivity].
  match goal with |- ?g = None => change (rmatch (RStar (RSet f)) s cs (fun s' cs' => rmatch b s' ((n, firstn (List.length (c :: s) - List.length s') (c :: s)) :: cs') k) = None) end.
  apply star_none. intros run rest -> Hr. apply (H (c :: run) rest); [reflexivity|discriminate|].
  cbn. rewrite Hc. exact Hr.
Qed.
Lemma takes_code c : c <> [] -> code_ok c -> takes rx_code (B " (" ++ c ++ B ")") [("code"%string, c)] (fun _ => True).
Proof.
  intros Hn Hc. unfold rx_code. cbn [rseq].
  eapply takes_eq; [eapply takes_seq with (t1 := [" "%char]) (c1 := []) (P1 := hd_not is_space);
    [apply takes_spaces; [discriminate|reflexivity|auto]|
     eapply takes_seq with (t1 := ["("%char]) (c1 := []) (P1 := fun _ => True); [apply takes_char|
       eapply takes_seq with (t1 := c) (t2 := [")"%char]) (c2 := []) (P1 := hd_not is_word) (P2 := fun _ => True);
         [apply takes_grp, takes_plus; [exact Hn|exact Hc|auto]|apply takes_char|]|]|]| |].
  - intros; reflexivity.
  - intros; exact I.
  - intros; reflexivity.
  - reflexivity.
  - reflexivity.
Qed.
(** a text that has no code in front of it *)
Lemma fails_code1 s : ~ code_like s -> fails (rseq [rchar "("%char; RGrp "code" (rplus w_); rchar ")"%char]) s.
Proof.
  intros H. cbn [rseq]. destruct s as [|c s]; [intros R cs k; reflexivity|].
  destruct (eqc "("%char c) eqn:E.
  - apply eqc_eq in E. subst c. apply fails_set_seq_r. apply fails_grp_plus_seq. intros run rest -> Hn Hr.
    apply fails_set. destruct rest as [|x rest]; [exact I|]. cbn. destruct (eqc ")"%char x) eqn:E; [|reflexivity].
    apply eqc_eq in E. subst x. exfalso. apply H. exists run, rest. repeat split; auto.
  - apply fails_seq_l, fails_set. exact E.
Qed.
Lemma fails_code s : hd_not is_space s -> ~ code_like s -> fails rx_code (" "%char :: s).
Proof.
  intros Hs H. apply fails_plus_seq. intros run rest E Hn Hr.
  destruct run as [|x run]; [congruence|]. cbn in E. injection E as <- E.
  destruct run as [|y run].
  - cbn in E. subst rest. apply fails_code1, H.
  - subst s. cbn in Hs, Hr. rewrite Hs in Hr. discriminate.
Qed.
Lemma fails_code_nil : fails rx_code [" "%char].
Proof. apply fails_code; [exact I|]. intros (w & r & _ & _ & E). discriminate. Qed.
Lemma fails_desc_nil : fails rx_desc [" "%char].
Proof. intros R cs k. reflexivity. Qed.
Lemma word_not_blank c : is_word c = true -> c <> " "%char.
Proof. intros H ->. discriminate. Qed.
Lemma code_like_ext d ext : (ext = [] \/ exists r, ext = " "%char :: r) -> code_like (d ++ ext) -> code_like d.
Proof.
  intros He (w & r & Hn & Hw & E).
  assert (E' : (B "(" ++ w ++ B ")") ++ r = d ++ ext) by (rewrite E, <- !app_assoc; reflexivity). clear E.
  destruct (app_eq_app _ _ _ _ E') as (l & [[E1 E2]|[E1 E2]]).
  - destruct l as [|x l].
    + rewrite app_nil_r in E1. exists w, []. repeat split; auto. 
    + destruct He as [->|[r' ->]]; [discriminate|]. cbn in E2. injection E2 as <- E2. exfalso.
      assert (Hin : In " "%char (B "(" ++ w ++ B ")")) by (rewrite E1; apply in_or_app; right; left; reflexivity).
      apply in_app_or in Hin as [[H|[]]|Hin]; [discriminate|]. apply in_app_or in Hin as [Hin|[H|[]]]; [|discriminate].
      rewrite forallb_forall in Hw. apply Hw in Hin. discriminate.
  - exists w, l. repeat split; auto. rewrite E1, <- !app_assoc. reflexivity.
Qed.

Definition code_text (c : bytes) : bytes := match c with [] => [] | _ => B " (" ++ c ++ B ")" end.
Definition code_caps (c : bytes) : caps := match c with [] => [] | _ => [("code"%string, c)] end.
(** rest after the description: nothing, or a short note (whose leading space goes to the description) *)
Definition dnote_pre (o : option bytes) : bytes := match o with None => [] | Some _ => B " " end.
Definition dnote_text (o : option bytes) : bytes := match o with None => [] | Some n => B "; " ++ n end.
Lemma note_text_split o : note_text o = dnote_pre o ++ dnote_text o.
Proof. destruct o; reflexivity. Qed.
Lemma takes_dnote o : (forall n, o = Some n -> line_text n) -> takes (ROpt (semi_note "shortNote")) (dnote_text o) (note_caps o) at_end.
Proof.
  intros H. destruct o as [n|]; cbn [dnote_text note_caps].
  - apply takes_opt_some, takes_semi, H. reflexivity.
  - apply takes_opt_none. intros rest ->. intros R cs k. reflexivity.
Qed.
Lemma takes_desc d o : d <> [] -> desc_text_ok d ->
  takes rx_desc (B " " ++ d ++ dnote_pre o) [("description"%string, d ++ dnote_pre o)] (hd_not not_semi).
Proof.
  intros Hn (_ & Hs & Hsp & _). unfold rx_desc. destruct d as [|c d]; [congruence|].
  cbn in Hsp. apply not_true_is_false in Hsp.
  eapply takes_eq; [eapply takes_seq with (t1 := [" "%char]) (c1 := []) (P1 := hd_not is_space);
    [apply takes_spaces; [discriminate|reflexivity|auto]|
     apply takes_grp; eapply takes_seq with (t1 := [c]) (t2 := d ++ dnote_pre o) (c1 := []) (c2 := []) (P1 := fun _ => True);
       [apply takes_set; rewrite Hsp; reflexivity|apply takes_star; [|intros rest HR; exact HR]|]|]| |].
  - apply forallb_forall. intros x Hx. unfold not_semi. destruct (eqc x ";"%char) eqn:E; [|reflexivity].
    apply eqc_eq in E. subst x. exfalso. apply in_app_or in Hx as [Hx|Hx].
    + apply Hs. right. exact Hx.
    + destruct o; cbn in Hx; [destruct Hx as [Hx|[]]; discriminate|contradiction].
  - intros; exact I.
  - intros rest _. cbn. exact Hsp.
  - reflexivity.
  - reflexivity.
Qed.
(** header text: date, code, description, note *)
Definition hline (n : Z) (c d : bytes) (o : option bytes) : bytes :=
  format_date n ++ B " " ++ (match c with [] => [] | _ => B "(" ++ c ++ B ") " end) ++ d ++ note_text o.
Definition hcaps (n : Z) (c d : bytes) (o : option bytes) : caps :=
  note_caps o ++ (match d with [] => [] | _ => [("description"%string, d ++ dnote_pre o)] end) ++ code_caps c ++ wdate_caps n.
Lemma takes_opt_code c (P : bytes -> Prop) : code_ok c -> (c = [] -> forall rest, P rest -> fails rx_code rest) ->
  takes (ROpt rx_code) (code_text c) (code_caps c) P.
Proof.
  intros Hc HP. destruct c as [|x c].
  - apply takes_opt_none. apply HP. reflexivity.
  - apply takes_opt_some. eapply takes_weaken; [|apply takes_code; [discriminate|exact Hc]]. intros; exact I.
Qed.
Lemma code_text_ends c rest : hd_is is_space rest -> ends_date (code_text c ++ rest).
Proof.
  intros H. destruct c; cbn [code_text]; cbn [app B list_ascii_of_string].
  - destruct rest as [|x r]; [contradiction|]. cbn in H. cbn. rewrite (space_not_digit _ H).
    split; [reflexivity|]. repeat split; intros ->; discriminate.
  - cbn. split; [reflexivity|]. repeat split; discriminate.
Qed.
Lemma search_hline n c d o : 100 <= year_of n <= 9999 -> code_ok c -> desc_text_ok d -> (c = [] -> ~ code_like d) ->
  (d = [] -> o = None) -> (forall x, o = Some x -> line_text x) ->
  exists rest, rsearch transactionREX (hline n c d o) = Some (rest, hcaps n c d o).
Proof.
  intros Hy Hc Hd Hcl Hdo Ho. assert (TD := takes_written n ltac:(lia)). rewrite DateREX_eq in TD.
  destruct d as [|d0 d].
  - rewrite (Hdo eq_refl). exists (B " ").
    replace (hline n c [] None) with ((format_date n ++ code_text c) ++ B " ").
    2:{ unfold hline, code_text. destruct c; cbn [note_text app]; rewrite <- !app_assoc; cbn [app]; rewrite <- ?app_assoc; reflexivity. }
    apply takes_search with (P := fun s => s = B " "); [|reflexivity]. rewrite transactionREX_eq.
    eapply takes_eq; [eapply takes_seq with (P1 := ends_date); [exact TD|
      eapply takes_seq with (P1 := fun s => s = B " ") (c2 := []) (t2 := []); [apply (takes_opt_code c); [exact Hc|]|
        eapply takes_eq; [eapply takes_seq with (t1 := []) (t2 := []) (c1 := []) (c2 := []) (P1 := fun s => s = B " ");
          [apply takes_opt_none|apply takes_opt_none|]|reflexivity|reflexivity]|]|]| |].
    + intros _ rest ->. apply fails_code_nil.
    + intros rest ->. apply fails_desc_nil.
    + intros rest ->. intros R cs k. reflexivity.
    + intros rest ->. reflexivity.
    + intros rest ->. reflexivity.
    + intros rest ->. rewrite app_nil_r. apply code_text_ends. reflexivity.
    + rewrite !app_nil_r. reflexivity.
    + reflexivity.
  - exists []. rewrite <- (app_nil_r (hline _ _ _ _)). apply takes_search with (P := at_end); [|reflexivity].
    remember (d0 :: d) as dd eqn:Edd. assert (Hdn : dd <> []) by (subst; discriminate).
    rewrite transactionREX_eq.
    eapply takes_eq; [eapply takes_seq with (P1 := ends_date); [exact TD|
      eapply takes_seq with (P1 := fun s => s = B " " ++ dd ++ note_text o); [apply (takes_opt_code c); [exact Hc|]|
        eapply takes_seq with (t1 := B " " ++ dd ++ dnote_pre o) (P1 := hd_not not_semi);
          [apply takes_opt_some, takes_desc; [exact Hdn|exact Hd]|apply takes_dnote, Ho|]|]|]| |].
    + intros Hce rest ->. apply fails_code.
      * destruct Hd as (_ & _ & Hsp & _). rewrite Edd in Hsp |- *. cbn in Hsp |- *. apply not_true_is_false, Hsp.
      * intros HL. apply (Hcl Hce). revert HL. apply code_like_ext. destruct o; [right; eexists; reflexivity|left; reflexivity].
    + intros rest ->. destruct o; [reflexivity|exact I].
    + intros rest ->. rewrite note_text_split, app_nil_r, <- !app_assoc. reflexivity.
    + intros rest ->. rewrite <- app_assoc. apply code_text_ends. reflexivity.
    + unfold hline, code_text. rewrite note_text_split. destruct c; rewrite <- ?app_assoc; cbn [app B list_ascii_of_string]; rewrite <- ?app_assoc; reflexivity.
    + unfold hcaps. rewrite Edd. rewrite <- !app_assoc. reflexivity.
Qed.
