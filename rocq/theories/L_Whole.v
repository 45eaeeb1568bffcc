(** Hand-written databases are read. *)
From Verif Require Import Base M_Amount M_Regex M_Date M_Parser M_Database S_Decimal S_Date S_DateText S_Ledger S_Written S_Database S_Whole
  L_Dec L_Amount L_Regex L_Date L_DateText L_Parser M_Writer L_RoundTrip L_Entries L_Written.

(** ** pieces of lines *)
Lemma trail_head t : trail t -> tail_head t.
Proof. intros (ns & H). destruct (tail_split _ _ H) as (tk & lf & o & _ & _ & _ & HH). exact (HH [] t eq_refl eq_refl). Qed.
Lemma trail_line t : trail t -> line_text t.
Proof. intros (ns & H). eapply line_tail, H. Qed.
Lemma value_hd v : value v -> hd_is (fun c => negb (is_space c)) v.
Proof. intros [_ H]. apply nonspace_hd, H. Qed.
Lemma value_any v : value v -> forallb (fun c => negb (code c =? 10)) v = true.
Proof. intros [H _]. apply forallb_forall. intros c Hc. unfold line_text in H. rewrite Forall_forall in H. specialize (H c Hc). lia. Qed.
Lemma gap_space sp : gap sp -> forallb is_space sp = true. Proof. intros [_ H]. apply blanks_space, H. Qed.
(** spaces keyword spaces value *)
Lemma takes_kw_w kw b sp sp2 v new (P : bytes -> Prop) : gap sp -> gap sp2 -> (exists c r, kw = c :: r /\ is_space c = false) -> hd_is (fun c => negb (is_space c)) v ->
  takes b v new P -> takes (rseq [rplus s_; rlit kw; rplus s_; b]) (sp ++ kw ++ sp2 ++ v) new P.
Proof.
  intros G1 G2 (c & r & -> & Hc) Hv Hb. cbn [rseq].
  eapply takes_eq; [eapply takes_seq with (t1 := sp) (c1 := []) (P1 := hd_not is_space);
    [apply takes_gap; [exact G1|auto]|
     eapply takes_seq with (t1 := c :: r) (c1 := []) (P1 := fun _ => True); [apply takes_lit|
      eapply takes_seq with (t1 := sp2) (c1 := []) (P1 := hd_not is_space); [apply takes_gap; [exact G2|auto]|exact Hb|]|]|]| |].
  - intros rest _. eapply hd_is_not; [|apply hd_is_app, Hv]. intros x Hx. apply negb_true_iff, Hx.
  - intros; exact I.
  - intros rest _. cbn [app hd_not]. exact Hc.
  - reflexivity.
  - rewrite !app_nil_r. reflexivity.
Qed.
(** spaces keyword, kept *)
Lemma takes_flag nm kw sp t : gap sp -> (exists c r, kw = c :: r /\ is_space c = false) -> trail t ->
  exists lf tk, t = tk ++ lf /\ takes (rseq [rplus s_; RGrp nm (rlit kw); RStar s_]) (sp ++ kw ++ tk) [(nm, kw)] (fun s => s = lf).
Proof.
  intros G (c & r & -> & Hc) (ns & HT). destruct (tail_desc _ _ HT) as (sp' & y & o & -> & Hb & _ & _ & Hy).
  exists y, sp'. split; [reflexivity|]. cbn [rseq].
  eapply takes_eq; [eapply takes_seq with (t1 := sp) (c1 := []) (P1 := hd_not is_space); [apply takes_gap; [exact G|auto]|
    eapply takes_seq with (t1 := c :: r) (P1 := fun _ => True); [apply takes_grp, takes_lit|apply takes_star; [apply blanks_space, Hb|]|]|]| |].
  - intros rest ->. destruct Hy as [->|(z & ->)]; [exact I|reflexivity].
  - intros; exact I.
  - intros rest _. exact Hc.
  - reflexivity.
  - reflexivity.
Qed.
Lemma fails_flag nm c kw b sp t : is_space c = false -> forallb is_space sp = true -> hd_not is_space t -> has_prefix (c :: kw) t = false ->
  fails (RSeq (rplus s_) (RSeq (RGrp nm (rlit (c :: kw))) b)) (sp ++ t).
Proof.
  intros Hc Hs Ht Hp. apply fails_spaces; auto.
  - intros s Hh. apply fails_seq_l, fails_grp, fails_lit_space; assumption.
  - apply fails_seq_l, fails_grp, fails_lit, Hp.
Qed.
Ltac alts := cbn [ralt]; repeat (apply takes_alt_r; [intros ? ->; rewrite <- ?app_assoc; first [apply fails_kw|apply fails_flag]; [reflexivity|apply gap_space; assumption|reflexivity|reflexivity]|]).
Ltac kw_w := try apply takes_alt_l; apply takes_kw_w; [assumption|assumption|do 2 eexists; split; reflexivity| |].
(** search with something left over *)
Lemma search_left r t lf new x : x = t ++ lf -> takes r t new (fun s => s = lf) -> rsearch r x = Some (lf, new).
Proof. intros -> T. apply takes_search with (P := fun s => s = lf); [exact T|reflexivity]. Qed.
Lemma left_not f lf : tail_head lf -> (forall c, tailc c = true -> f c = false) -> forall s, s = lf -> hd_not f s.
Proof. intros H K s ->. apply (tail_hd_not _ _ H), K. Qed.

Lemma asearch_note sp sp2 y : gap sp -> gap sp2 -> value y -> (2 <= List.length y)%nat ->
  rsearch accountBodyREX (sp ++ B "note" ++ sp2 ++ y) = Some ([], [("note"%string, y)]).
Proof.
  intros G1 G2 Hy Hn. rewrite accountBodyREX_eq. apply (search_left _ (sp ++ B "note" ++ sp2 ++ y) []); [symmetry; apply app_nil_r|]. alts. kw_w.
  - apply value_hd, Hy.
  - apply takes_grp. assert (HV := value_any _ Hy). destruct Hy as [Hl Hs]. destruct y as [|c [|c' v]]; cbn in Hn; [lia|lia|].
    eapply takes_eq; [eapply takes_seq with (t1 := [c]) (t2 := c' :: v) (c1 := []) (c2 := []) (P1 := fun _ => True)| |]; [apply takes_set, Hs| | | |].
    + apply takes_plus; [discriminate| |intros rest ->; exact I]. cbn [forallb] in HV. apply andb_true_iff in HV as [_ HV]. exact HV.
    + intros; exact I.
    + reflexivity.
    + reflexivity.
Qed.
Lemma asearch_commodity sp sp2 y t : gap sp -> gap sp2 -> id_ok y -> trail t ->
  rsearch accountBodyREX (sp ++ B "commodity" ++ sp2 ++ y ++ t) = Some (t, [("commodity"%string, y)]).
Proof.
  intros G1 G2 Hy Ht. rewrite accountBodyREX_eq. apply (search_left _ (sp ++ B "commodity" ++ sp2 ++ y) t); [rewrite <- !app_assoc; reflexivity|]. alts. kw_w.
  - apply id_hd, Hy.
  - eapply takes_weaken; [|apply takes_id, Hy]. apply left_not; [apply trail_head, Ht|apply tailc_not_word].
Qed.
Lemma date_ends t : tail_head t -> ends_date t.
Proof. destruct t as [|z r]; [intros; exact I|]. intros H. cbn in H |- *. rewrite (tailc_not_digit _ H). split; [reflexivity|]. repeat split; intros ->; discriminate. Qed.
Lemma date_hd ys ms ds r : date_ok ys ms ds -> hd_is is_digit (date_text ys ms ds ++ r).
Proof.
  intros (Hy & (Hm & Lm) & _). unfold date_text.
  assert (M : hd_is is_digit (md_text ms ds ++ r)).
  { unfold md_text. rewrite <- !app_assoc. unfold dtext at 1. destruct ms as [|m0 ms]; [cbn in Lm; lia|]. cbn. apply digit_char_is_digit. inversion Hm; assumption. }
  destruct ys as [|y0 yr]; [exact M|]. unfold ymd_text. cbn. apply digit_char_is_digit.
  destruct Hy as [Hy|[[Hy _]|[Hy _]]]; [discriminate| |]; inversion Hy; assumption.
Qed.
Lemma asearch_closed sp sp2 ys ms ds t : gap sp -> gap sp2 -> date_ok ys ms ds -> trail t ->
  rsearch accountBodyREX (sp ++ B "closed" ++ sp2 ++ date_text ys ms ds ++ t) = Some (t, dcaps ys ms ds).
Proof.
  intros G1 G2 Hy Ht. rewrite accountBodyREX_eq. apply (search_left _ (sp ++ B "closed" ++ sp2 ++ date_text ys ms ds) t); [rewrite <- !app_assoc; reflexivity|]. alts. kw_w.
  - assert (H := date_hd ys ms ds [] Hy). rewrite app_nil_r in H. destruct (date_text ys ms ds) as [|c r]; [contradiction|]. cbn in H |- *. rewrite (digit_not_space _ H). reflexivity.
  - assert (TD := takes_date ys ms ds Hy). rewrite DateREX_eq in TD. eapply takes_weaken; [|exact TD]. intros s ->. apply date_ends, trail_head, Ht.
Qed.
Lemma asearch_bankid sp sp2 y t : gap sp -> gap sp2 -> y <> [] -> forallb is_digit y = true -> trail t ->
  rsearch accountBodyREX (sp ++ B "ofx_bankid" ++ sp2 ++ y ++ t) = Some (t, [("ofx_bankid"%string, y)]).
Proof.
  intros G1 G2 N Hy Ht. rewrite accountBodyREX_eq. apply (search_left _ (sp ++ B "ofx_bankid" ++ sp2 ++ y) t); [rewrite <- !app_assoc; reflexivity|]. alts. kw_w.
  - apply word_hd; [exact N|apply digit_word_all, Hy].
  - apply takes_grp, takes_plus; [exact N|exact Hy|]. apply left_not; [apply trail_head, Ht|apply tailc_not_digit].
Qed.
Lemma asearch_acctid sp sp2 y t : gap sp -> gap sp2 -> y <> [] -> forallb is_digit y = true -> trail t ->
  rsearch accountBodyREX (sp ++ B "ofx_acctid" ++ sp2 ++ y ++ t) = Some (t, [("ofx_acctid"%string, y)]).
Proof.
  intros G1 G2 N Hy Ht. rewrite accountBodyREX_eq. apply (search_left _ (sp ++ B "ofx_acctid" ++ sp2 ++ y) t); [rewrite <- !app_assoc; reflexivity|]. alts. kw_w.
  - apply word_hd; [exact N|apply digit_word_all, Hy].
  - apply takes_grp, takes_plus; [exact N|exact Hy|]. apply left_not; [apply trail_head, Ht|apply tailc_not_digit].
Qed.
Lemma asearch_csvid sp sp2 y t : gap sp -> gap sp2 -> y <> [] -> forallb is_word y = true -> trail t ->
  rsearch accountBodyREX (sp ++ B "csv_acctid" ++ sp2 ++ y ++ t) = Some (t, [("csv_acctid"%string, y)]).
Proof.
  intros G1 G2 N Hy Ht. rewrite accountBodyREX_eq. apply (search_left _ (sp ++ B "csv_acctid" ++ sp2 ++ y) t); [rewrite <- !app_assoc; reflexivity|]. alts. kw_w.
  - apply word_hd; [exact N|exact Hy].
  - apply takes_grp, takes_plus; [exact N|exact Hy|]. apply left_not; [apply trail_head, Ht|apply tailc_not_word].
Qed.
(** a line that starts with spaces and has something else *)
Lemma body_goes sp c r : gap sp -> uni_space c = false -> body_ends (sp ++ c :: r) = false.
Proof.
  intros [N H] Hc. unfold body_ends. apply orb_false_iff. split.
  - unfold blank. rewrite forallb_app. cbn [forallb]. unfold uni_space in Hc. destruct (is_ascii_space c); [discriminate|]. apply andb_false_r.
  - destruct sp as [|x sp]; [congruence|]. cbn [app]. apply blanks_space in H. cbn in H. apply andb_true_iff in H as [H _].
    unfold uni_space, is_ascii_space. rewrite H. reflexivity.
Qed.
Lemma account_line_read e a l a' rest nr : account_line (e_today e) a l a' ->
  account_loop e (l :: rest) nr a = account_loop e rest (S nr) a'.
Proof.
  intros [n x c cl b ac v ln sp sp2 y G1 G2 Hy Hn|n x c cl b ac v ln sp sp2 y t G1 G2 Hy Ht|n x c cl b ac v ln sp sp2 d y t G1 G2 HD Ht|
    n x c cl b ac v ln sp sp2 y t G1 G2 N Hy Ht|n x c cl b ac v ln sp sp2 y t G1 G2 N Hy Ht|n x c cl b ac v ln sp sp2 y t G1 G2 N Hy Ht];
  cbn [account_loop]; match goal with |- context [body_ends ?l] => replace (body_ends l) with false by (symmetry; apply (body_goes sp); [exact G1|reflexivity]) end; cbv iota.
  - rewrite asearch_note by assumption. change (cap "note" [("note"%string, y)]) with y. destruct y as [|c0 y]; [cbn in Hn; lia|]. reflexivity.
  - rewrite asearch_commodity by assumption. change (cap "note" [("commodity"%string, y)]) with (@nil ascii).
    change (cap "commodity" [("commodity"%string, y)]) with y. destruct Hy as (c0 & r0 & -> & _). reflexivity.
  - destruct (date_read _ _ _ HD) as (ys & ms & ds & O & -> & ->). rewrite asearch_closed by assumption.
    assert (EM := header_date (e_today e) ys ms ds None None [] O). cbn [hrest note_caps code_caps app] in EM. rewrite EM.
    replace (cap "note" (dcaps ys ms ds)) with (@nil ascii) by (unfold dcaps, ymd_caps; destruct ys; reflexivity).
    replace (cap "commodity" (dcaps ys ms ds)) with (@nil ascii) by (unfold dcaps, ymd_caps; destruct ys; reflexivity).
    change (cap "date" (dcaps ys ms ds)) with (date_text ys ms ds). assert (H := date_hd ys ms ds [] O). rewrite app_nil_r in H.
    destruct (date_text ys ms ds); [contradiction|]. reflexivity.
  - rewrite asearch_bankid by assumption. change (cap "ofx_bankid" [("ofx_bankid"%string, y)]) with y. destruct y as [|c0 y]; [congruence|]. reflexivity.
  - rewrite asearch_acctid by assumption. change (cap "ofx_acctid" [("ofx_acctid"%string, y)]) with y. destruct y as [|c0 y]; [congruence|]. reflexivity.
  - rewrite asearch_csvid by assumption. change (cap "csv_acctid" [("csv_acctid"%string, y)]) with y. destruct y as [|c0 y]; [congruence|]. reflexivity.
Qed.
Lemma account_lines_read e a ls a' : account_lines (e_today e) a ls a' -> forall rest nr, account_loop e (ls ++ rest) nr a = account_loop e rest (nr + List.length ls) a'.
Proof.
  induction 1 as [a|a l a1 ls a2 H _ IH]; intros rest nr; [cbn [app List.length]; rewrite Nat.add_0_r; reflexivity|].
  cbn [app]. rewrite (account_line_read e a l a1 _ _ H), IH. cbn [List.length]. f_equal. lia.
Qed.
(** where the body of a definition stops *)
Definition halts (rest : list bytes) : Prop := match rest with [] => True | l :: _ => body_ends l = true end.
Lemma account_loop_halts e rest nr a : halts rest -> account_loop e rest nr a = Ok (a, mkParser rest nr).
Proof. destruct rest as [|l r]; [reflexivity|]. cbn. intros ->. reflexivity. Qed.
Lemma commodity_loop_halts rest nr c d : halts rest -> commodity_loop rest nr c d = Ok (c, d, mkParser rest nr).
Proof. destruct rest as [|l r]; [reflexivity|]. cbn. intros ->. reflexivity. Qed.

(** ** commodities *)
Lemma csearch_note sp sp2 y : gap sp -> gap sp2 -> value y ->
  rsearch commodityBodyREX (sp ++ B "note" ++ sp2 ++ y) = Some ([], [("note"%string, y)]).
Proof.
  intros G1 G2 Hy. rewrite commodityBodyREX_eq. apply (search_left _ (sp ++ B "note" ++ sp2 ++ y) []); [symmetry; apply app_nil_r|]. alts. kw_w.
  - apply value_hd, Hy.
  - apply takes_grp, takes_plus; [destruct Hy as [_ Hy]; destruct y; [contradiction|discriminate]|apply value_any, Hy|intros rest ->; exact I].
Qed.
Lemma csearch_format sp sp2 l sp3 j t : gap sp -> gap sp2 -> lit_ok l -> gap sp3 -> id_ok j -> trail t ->
  rsearch commodityBodyREX (sp ++ B "format" ++ sp2 ++ lit_text l ++ sp3 ++ j ++ t) =
  Some (t, ("format"%string, lit_text l ++ sp3 ++ j) :: ("commodity"%string, j) :: ("amount"%string, lit_text l) :: lit_caps "decimals" l).
Proof.
  intros G1 G2 Hl G3 Hj Ht. rewrite commodityBodyREX_eq. apply (search_left _ (sp ++ B "format" ++ sp2 ++ lit_text l ++ sp3 ++ j) t); [rewrite <- !app_assoc; reflexivity|]. alts. kw_w.
  - assert (H := amount_start l Hl []). rewrite app_nil_r in H. destruct (lit_nonempty l Hl) as (a & b & E). rewrite E in H |- *. cbn in H |- *. rewrite H. reflexivity.
  - apply takes_grp. eapply takes_weaken; [|apply takes_amount; [exact Hl|apply G3|apply gap_space, G3|exact Hj]]. apply left_not; [apply trail_head, Ht|apply tailc_not_word].
Qed.
Lemma csearch_nomarket sp t : gap sp -> trail t -> exists lf, rsearch commodityBodyREX (sp ++ B "nomarket" ++ t) = Some (lf, [("nomarket"%string, B "nomarket")]).
Proof.
  intros G Ht. destruct (takes_flag "nomarket" (B "nomarket") sp t G) as (lf & tk & -> & T); [do 2 eexists; split; reflexivity|exact Ht|].
  exists lf. rewrite commodityBodyREX_eq. apply (search_left _ (sp ++ B "nomarket" ++ tk) lf); [rewrite <- !app_assoc; reflexivity|]. alts. apply takes_alt_l. exact T.
Qed.
Lemma csearch_default sp t : gap sp -> trail t -> exists lf, rsearch commodityBodyREX (sp ++ B "default" ++ t) = Some (lf, [("default"%string, B "default")]).
Proof.
  intros G Ht. destruct (takes_flag "default" (B "default") sp t G) as (lf & tk & -> & T); [do 2 eexists; split; reflexivity|exact Ht|].
  exists lf. rewrite commodityBodyREX_eq. apply (search_left _ (sp ++ B "default" ++ tk) lf); [rewrite <- !app_assoc; reflexivity|]. alts. exact T.
Qed.
Lemma tailc_not_symbol : forall c, tailc c = true -> is_word c || eqc c "."%char = false. Proof. all_chars. Qed.
Lemma symbol_not_space : forall c, is_word c || eqc c "."%char = true -> is_space c = false. Proof. all_chars. Qed.
Lemma csearch_symbol sp sp2 y t : gap sp -> gap sp2 -> y <> [] -> forallb (fun c => is_word c || eqc c "."%char) y = true -> trail t ->
  rsearch commodityBodyREX (sp ++ B "symbol" ++ sp2 ++ y ++ t) = Some (t, [("symbol"%string, y)]).
Proof.
  intros G1 G2 N Hy Ht. rewrite commodityBodyREX_eq. apply (search_left _ (sp ++ B "symbol" ++ sp2 ++ y) t); [rewrite <- !app_assoc; reflexivity|]. alts. kw_w.
  - destruct y as [|c r]; [congruence|]. cbn [forallb] in Hy. apply andb_true_iff in Hy as [Hc _]. cbn. rewrite (symbol_not_space _ Hc). reflexivity.
  - apply takes_grp, takes_plus; [exact N|exact Hy|]. apply left_not; [apply trail_head, Ht|apply tailc_not_symbol].
Qed.
Lemma lit_decimals l : pred (List.length (cap "decimals" (lit_caps "decimals" l))) = List.length (l_frac l).
Proof. unfold lit_caps. destruct (l_frac l); [reflexivity|]. cbn [cap String.eqb Ascii.eqb Bool.eqb List.length pred]. unfold dtext. rewrite map_length. reflexivity. Qed.
Lemma commodity_line_read c d l c' d' rest nr : commodity_line (c, d) l (c', d') ->
  commodity_loop (l :: rest) nr c d = commodity_loop rest (S nr) c' d'.
Proof.
  intros H. inversion H as [i x n m s ln d0 sp sp2 y G1 G2 Hy E1 E2 E3|i x n m s ln d0 sp sp2 lt sp3 j t G1 G2 Hl G3 Hj Ht E1 E2 E3|i x n m s ln d0 sp t G1 Ht E1 E2 E3|
    i x n m s ln d0 sp sp2 y t G1 G2 N Hy Ht E1 E2 E3|i x n m s ln d0 sp t G1 Ht E1 E2 E3]; subst;
  cbn [commodity_loop]; match goal with |- context [body_ends ?l] => replace (body_ends l) with false by (symmetry; apply (body_goes sp); [exact G1|reflexivity]) end; cbv iota.
  - rewrite csearch_note by assumption. change (cap "note" [("note"%string, y)]) with y. destruct Hy as [_ Hy]. destruct y as [|c0 y]; [contradiction|]. reflexivity.
  - rewrite csearch_format by assumption. set (cs := _ :: _).
    replace (cap "note" cs) with (@nil ascii) by (unfold cs, lit_caps; destruct (l_frac lt); reflexivity).
    change (cap "amount" cs) with (lit_text lt). replace (cap "decimals" cs) with (cap "decimals" (lit_caps "decimals" lt)) by reflexivity.
    rewrite lit_decimals. destruct (lit_nonempty lt Hl) as (a & b & ->). reflexivity.
  - destruct (csearch_nomarket sp t G1 Ht) as (lf & ->). reflexivity.
  - rewrite csearch_symbol by assumption. change (cap "symbol" [("symbol"%string, y)]) with y. destruct y as [|c0 y]; [congruence|]. reflexivity.
  - destruct (csearch_default sp t G1 Ht) as (lf & ->). reflexivity.
Qed.
Lemma commodity_lines_read c ls c' : commodity_lines c ls c' -> forall rest nr, commodity_loop (ls ++ rest) nr (fst c) (snd c) = commodity_loop rest (nr + List.length ls) (fst c') (snd c').
Proof.
  induction 1 as [c|c l c1 ls c2 H _ IH]; intros rest nr; [cbn [app List.length]; rewrite Nat.add_0_r; reflexivity|].
  cbn [app]. destruct c, c1. cbn [fst snd] in *. rewrite (commodity_line_read _ _ _ _ _ _ _ H), IH. cbn [List.length]. f_equal. lia.
Qed.

(** ** heads *)
Lemma name_tail_end t : tail_head t -> name_end t.
Proof. intros H. apply (tail_hd_not _ _ H), tailc_not_name. Qed.
Lemma head_account sp n t : gap sp -> name_ok n -> trail t -> match_caps accountHeadREX (B "account" ++ sp ++ n ++ t) = [("account"%string, n)].
Proof.
  intros G H Ht. unfold match_caps. rewrite (search_left accountHeadREX (B "account" ++ sp ++ n) t [("account"%string, n)]); [reflexivity|rewrite <- !app_assoc; reflexivity|].
  change accountHeadREX with (rseq [rlit (B "account"); rplus s_; rx_account]). cbn [rseq].
  eapply takes_eq; [eapply takes_seq with (t1 := B "account") (c1 := []) (P1 := fun _ => True); [apply takes_lit|
    eapply takes_seq with (t1 := sp) (c1 := []) (P1 := hd_not is_space); [apply takes_gap; [exact G|auto]|
      eapply takes_weaken; [|apply takes_account, H]|]|]| |].
  - intros s ->. apply name_tail_end, trail_head, Ht.
  - intros rest _. destruct (name_ok_head _ H) as (c & r & -> & Hc). cbn. apply alpha_not_space, Hc.
  - intros; exact I.
  - reflexivity.
  - reflexivity.
Qed.
Lemma gap_sp sp : blanks sp -> gap (B " " ++ sp).
Proof. intros H. split; [discriminate|]. constructor; [left; reflexivity|exact H]. Qed.
Lemma head_commodity sp n t : blanks sp -> id_ok n -> trail t -> match_caps commodityHeadREX (B "commodity " ++ sp ++ n ++ t) = [("commodity"%string, n)].
Proof.
  intros G H Ht. unfold match_caps. rewrite (search_left commodityHeadREX (B "commodity" ++ (B " " ++ sp) ++ n) t [("commodity"%string, n)]); [reflexivity|rewrite <- !app_assoc; reflexivity|].
  change commodityHeadREX with (rseq [rlit (B "commodity"); rplus s_; rx_commodity]). cbn [rseq].
  eapply takes_eq; [eapply takes_seq with (t1 := B "commodity") (c1 := []) (P1 := fun _ => True); [apply takes_lit|
    eapply takes_seq with (t1 := B " " ++ sp) (c1 := []) (P1 := hd_not is_space); [apply takes_gap; [apply gap_sp, G|auto]|
      eapply takes_weaken; [|apply takes_id, H]|]|]| |].
  - apply left_not; [apply trail_head, Ht|apply tailc_not_word].
  - intros rest _. destruct H as (c & r & -> & Hc & _). cbn. apply alpha_not_space, Hc.
  - intros; exact I.
  - reflexivity.
  - reflexivity.
Qed.
(** keyword and the rest of the line *)
Lemma takes_arg kw sp v : gap sp -> value v -> takes (rseq [rlit kw; rplus s_; RGrp "1" (rplus any_)]) (kw ++ sp ++ v) [("1"%string, v)] at_end.
Proof.
  intros G Hv. cbn [rseq].
  eapply takes_eq; [eapply takes_seq with (t1 := kw) (c1 := []) (P1 := fun _ => True); [apply takes_lit|
    eapply takes_seq with (t1 := sp) (t2 := v) (c1 := []) (P1 := hd_not is_space); [apply takes_gap; [exact G|auto]|
      apply takes_grp, takes_plus; [destruct Hv as [_ Hv]; destruct v; [contradiction|discriminate]|apply value_any, Hv|apply at_end_nil]|]|]| |].
  - intros rest _. eapply hd_is_not; [|apply hd_is_app, value_hd, Hv]. intros x Hx. apply negb_true_iff, Hx.
  - intros; exact I.
  - reflexivity.
  - reflexivity.
Qed.
Lemma search_arg kw sp v : gap sp -> value v -> rsearch (rseq [rlit kw; rplus s_; RGrp "1" (rplus any_)]) (kw ++ sp ++ v) = Some ([], [("1"%string, v)]).
Proof. intros G Hv. apply (search_left _ (kw ++ sp ++ v) []); [symmetry; apply app_nil_r|]. apply takes_arg; assumption. Qed.

(** ** tests *)
Lemma white_space s : white s <-> forallb is_ascii_space s = true.
Proof.
  unfold white. rewrite forallb_forall, Forall_forall. split; intros H c Hc; specialize (H c Hc).
  - cbn [map] in H. cbn [In] in H. destruct H as [<-|[<-|[<-|[<-|[<-|[<-|[]]]]]]]; reflexivity.
  - revert H. clear. destruct c as [b0 b1 b2 b3 b4 b5 b6 b7]; destruct b0, b1, b2, b3, b4, b5, b6, b7; vm_compute; intros H; try discriminate; tauto.
Qed.
Lemma drop_white b s : white b -> drop_space (b ++ s) = drop_space s.
Proof. intros H. apply white_space in H. induction b as [|c b IH]; [reflexivity|]. cbn in H |- *. apply andb_true_iff in H as [H1 H2]. rewrite H1. auto. Qed.
Lemma trim_white b s b' : white b -> white b' -> trim_space (b ++ s ++ b') = trim_space s.
Proof.
  intros H H'. unfold trim_space. rewrite drop_white by exact H. f_equal.
  (* dropping from both ends commutes *)
  assert (D : forall x, exists p, white p /\ x = p ++ drop_space x).
  { induction x as [|c x (p & Hp & E)]; [exists []; split; [constructor|reflexivity]|]. cbn [drop_space]. destruct (is_ascii_space c) eqn:Ec.
    - exists (c :: p). split; [apply white_space; cbn; rewrite Ec; apply white_space, Hp|]. cbn. f_equal. exact E.
    - exists []. split; [constructor|reflexivity]. }
  assert (W : forall x y, white x -> white y -> white (x ++ y)) by (intros; apply Forall_app; auto).
  assert (R : forall x, white x -> white (rev x)) by (intros; apply Forall_rev; auto).
  assert (Z : forall x, white x -> drop_space x = []) by (intros x Hx; rewrite <- (app_nil_r x), drop_white by exact Hx; reflexivity).
  (* case: s all white or has a first non-white character *)
  destruct (drop_space s) as [|c r] eqn:E.
  - destruct (D s) as (p & Hp & Es). rewrite E, app_nil_r in Es. rewrite (Z (s ++ b')); [reflexivity|]. rewrite Es. apply W; assumption.
  - destruct (D s) as (p & Hp & Es). rewrite E in Es. rewrite Es, <- app_assoc, drop_white by exact Hp. cbn [app].
    assert (Ec : is_ascii_space c = false).
    { clear -E. induction s as [|x s IH]; [discriminate|]. cbn [drop_space] in E. destruct (is_ascii_space x) eqn:Ex; [exact (IH E)|]. injection E as <- _. exact Ex. }
    cbn [drop_space]. rewrite Ec. cbn [rev]. rewrite rev_app_distr, <- app_assoc. apply drop_white, R, H'.
Qed.
Lemma end_trim l : end_line l <-> trim_space l = B "end test".
Proof.
  split; [intros (b & b' & H & H' & ->); rewrite trim_white by assumption; reflexivity|]. intros E. unfold trim_space in E.
  assert (D : forall x, exists p, white p /\ x = p ++ drop_space x).
  { induction x as [|c x (p & Hp & Ep)]; [exists []; split; [constructor|reflexivity]|]. cbn [drop_space]. destruct (is_ascii_space c) eqn:Ec.
    - exists (c :: p). split; [apply white_space; cbn; rewrite Ec; apply white_space, Hp|]. cbn. f_equal. exact Ep.
    - exists []. split; [constructor|reflexivity]. }
  destruct (D l) as (b & Hb & El). destruct (D (rev (drop_space l))) as (q & Hq & Eq).
  exists b, (rev q). split; [exact Hb|]. split; [apply Forall_rev, Hq|]. rewrite El at 1. f_equal.
  apply (f_equal (@rev ascii)) in Eq. rewrite rev_involutive, rev_app_distr, E in Eq. exact Eq.
Qed.
Lemma test_loop_read ls z : Forall (fun l => line_text l /\ ~ end_line l) ls -> end_line z ->
  forall rest nr b, test_loop (ls ++ z :: rest) nr b = (b ++ concat (map (fun l => l ++ [chr 10]) ls), mkParser rest (nr + S (List.length ls))).
Proof.
  intros H Hz rest. induction H as [|l ls [_ Hl] _ IH]; intros nr b.
  - cbn [app map concat List.length test_loop]. apply end_trim in Hz. rewrite Hz. change (eqb_bytes (B "end test") (B "end test")) with true. cbv iota.
    rewrite app_nil_r, Nat.add_1_r. reflexivity.
  - cbn [app map concat List.length test_loop]. destruct (eqb_bytes (trim_space l) (B "end test")) eqn:E.
    + apply eqb_bytes_eq in E. apply end_trim in E. contradiction.
    + rewrite IH. f_equal; [rewrite <- !app_assoc; reflexivity|]. f_equal. lia.
Qed.

(** ** prices *)
Lemma psearch ys ms ds sp i sp2 l sp3 cur t : date_ok ys ms ds -> gap sp -> id_ok i -> gap sp2 -> lit_ok l -> gap sp3 -> id_ok cur -> trail t ->
  rsearch priceREX (B "P " ++ date_text ys ms ds ++ sp ++ i ++ sp2 ++ lit_text l ++ sp3 ++ cur ++ t) =
  Some (t, (("commodity2"%string, cur) :: ("amount"%string, lit_text l) :: lit_caps "decimals" l) ++ [("commodity1"%string, i)] ++ dcaps ys ms ds).
Proof.
  intros O G Hi G2 Hl G3 Hc Ht. rewrite priceREX_eq. assert (TD := takes_date ys ms ds O). rewrite DateREX_eq in TD.
  apply (search_left _ (B "P " ++ date_text ys ms ds ++ sp ++ i ++ sp2 ++ lit_text l ++ sp3 ++ cur) t); [rewrite <- !app_assoc; reflexivity|].
  unfold rx_price.
  eapply takes_eq; [eapply takes_seq with (c1 := []) (P1 := fun _ => True); [apply takes_lit|
    eapply takes_seq with (P1 := ends_date); [exact TD|
     eapply takes_seq with (t1 := sp) (c1 := []) (P1 := hd_not is_space); [apply takes_gap; [exact G|auto]|
      eapply takes_seq with (P1 := hd_not is_word); [apply takes_id, Hi|
       eapply takes_seq with (t1 := sp2) (c1 := []) (P1 := hd_not is_space); [apply takes_gap; [exact G2|auto]|
        eapply takes_weaken; [|apply (takes_amount _ _ _ l sp3 cur); [exact Hl|apply G3|apply gap_space, G3|exact Hc]]|]|]|]|]|]| |].
  - apply left_not; [apply trail_head, Ht|apply tailc_not_word].
  - intros rest _. rewrite <- app_assoc. apply lit_hd_nonspace, Hl.
  - intros rest _. rewrite <- app_assoc. eapply hd_is_not; [|apply (gap_head sp2 _ G2)]. intros c Hs. apply not_true_is_false. intros Hw. apply word_not_space in Hw. congruence.
  - intros rest _. destruct Hi as (x & r & -> & Hx & _). cbn. apply alpha_not_space, Hx.
  - intros rest _. rewrite <- app_assoc. apply date_ends. assert (H := gap_head sp ((i ++ sp2 ++ lit_text l ++ sp3 ++ cur) ++ rest) G). destruct (sp ++ _); [exact I|]. cbn in H |- *. unfold tailc. rewrite H. reflexivity.
  - intros; exact I.
  - rewrite <- ?app_assoc. reflexivity.
  - rewrite ?app_nil_r, <- ?app_assoc. reflexivity.
Qed.
Lemma price_date td cs ys ms ds : date_ok ys ms ds ->
  (forall n, In n ["ymd"; "ymdd"; "ymdm"; "ymdy"; "offset"]%string -> Forall (fun p : string * bytes => n <> fst p) cs) ->
  must_parse_date td (cs ++ dcaps ys ms ds) = Ok (go_date (resolve_year td ys ms) (num ms) (num ds)).
Proof.
  intros O H. unfold must_parse_date. destruct td as [[y m] d].
  assert (G := parse_date_caps y m d ys ms ds O (cs ++ [("date"%string, date_text ys ms ds)]) []).
  rewrite app_nil_r, <- app_assoc in G. cbn [app] in G. unfold dcaps. rewrite G; [reflexivity| |intros; constructor].
  intros n Hn. apply Forall_app. split; [apply H, Hn|]. constructor; [|constructor]. cbn. intros ->. cbn in Hn. intuition discriminate.
Qed.

(** ** entries *)
Lemma next_head_account e n rest nr : next_lines e ((B "account" ++ n) :: rest) nr =
  do r <- parse_account e (B "account" ++ n) rest nr; Ok (Some (IAccount (fst r), e_default e, snd r)).
Proof. reflexivity. Qed.
Lemma next_head_include e n rest nr : next_lines e ((B "include" ++ n) :: rest) nr =
  do r <- parse_include (B "include" ++ n) rest nr; Ok (Some (fst r, e_default e, snd r)).
Proof. reflexivity. Qed.
Lemma next_head_test e n rest nr : next_lines e ((B "test " ++ n) :: rest) nr =
  do r <- parse_test (B "test " ++ n) rest nr; Ok (Some (ITest (fst r), e_default e, snd r)).
Proof. reflexivity. Qed.
Lemma account_line_nr td a l a' : account_line td a l a' -> forall n,
  account_line td (mkPAccount (pa_name a) (pa_desc a) (pa_commodity a) (pa_closed a) (pa_bankid a) (pa_acctid a) (pa_csvid a) n) l
    (mkPAccount (pa_name a') (pa_desc a') (pa_commodity a') (pa_closed a') (pa_bankid a') (pa_acctid a') (pa_csvid a') n).
Proof. intros [] k; cbn [pa_name pa_desc pa_commodity pa_closed pa_bankid pa_acctid pa_csvid]; [apply al_note|apply al_commodity|apply al_closed|apply al_bankid|apply al_acctid|apply al_csvid]; assumption. Qed.
Lemma account_lines_nr td a ls a' : account_lines td a ls a' -> forall n,
  account_lines td (mkPAccount (pa_name a) (pa_desc a) (pa_commodity a) (pa_closed a) (pa_bankid a) (pa_acctid a) (pa_csvid a) n) ls
    (mkPAccount (pa_name a') (pa_desc a') (pa_commodity a') (pa_closed a') (pa_bankid a') (pa_acctid a') (pa_csvid a') n).
Proof. induction 1 as [|a l a1 ls a2 H _ IH]; intros n; [constructor|]. econstructor; [apply account_line_nr, H|apply IH]. Qed.
Definition cnr (n : nat) (c : pcommodity) := mkPCommodity (pc_id c) (pc_name c) (pc_dec c) (pc_nomarket c) (pc_symbol c) n.
Lemma commodity_line_nr c l c' : commodity_line c l c' -> forall n, commodity_line (cnr n (fst c), snd c) l (cnr n (fst c'), snd c').
Proof. intros [] k; unfold cnr; cbn [fst snd pc_id pc_name pc_dec pc_nomarket pc_symbol]; [apply cl_note|apply cl_format|apply cl_nomarket|apply cl_symbol|apply cl_default]; assumption. Qed.
Lemma commodity_lines_nr c ls c' : commodity_lines c ls c' -> forall n, commodity_lines (cnr n (fst c), snd c) ls (cnr n (fst c'), snd c').
Proof. induction 1 as [|c l c1 ls c2 H _ IH]; intros n; [constructor|]. econstructor; [apply commodity_line_nr, H|apply IH]. Qed.

Definition tx_stops (i : item) (rest : list bytes) : Prop := match i with ITransaction _ => stops rest | _ => halts rest end.
Lemma entry_read e i d ls rest nr : entry_is e i d ls -> tx_stops i rest ->
  next_lines e (ls ++ rest) nr = Ok (Some (item_at nr i, d, mkParser rest (nr + List.length ls))).
Proof.
  intros H Hst. destruct H as [t ls H|sp n t ls a G Hn Ht H|sp i t ls c d G Hi Ht H|d dt sp i sp2 l sp3 cur c t HD G Hi G2 Hl G3 Hc Hf F1 F2 F3 Ht|sp cmd ls z G Hv Hl Lz Hz|sp path G Hv].
  - apply next_written; assumption.
  - cbn [app]. rewrite next_head_account. unfold parse_account. rewrite head_account by assumption. change (cap "account" [("account"%string, n)]) with n.
    apply (fun h => account_lines_nr _ _ _ _ h nr) in H. cbn [pa_name pa_desc pa_commodity pa_closed pa_bankid pa_acctid pa_csvid] in H.
    rewrite (account_lines_read e _ _ _ H), account_loop_halts by exact Hst. cbn [bind fst snd item_at List.length]. rewrite Nat.add_succ_r. reflexivity.
  - cbn [app]. rewrite next_commodity. unfold parse_commodity. rewrite head_commodity by assumption. change (cap "commodity" [("commodity"%string, i)]) with i.
    apply (fun h => commodity_lines_nr _ _ _ h nr) in H. assert (R := commodity_lines_read _ _ _ H rest (S nr)). cbn [fst snd] in R. unfold cnr in R. cbn [pc_id pc_name pc_dec pc_nomarket pc_symbol] in R.
    rewrite R, commodity_loop_halts by exact Hst. cbn [bind fst snd item_at List.length]. rewrite Nat.add_succ_r. reflexivity.
  - cbn [app]. destruct (date_read _ _ _ HD) as (ys & ms & ds & O & -> & ->). rewrite next_price. unfold parse_price. rewrite psearch by assumption.
    rewrite app_assoc. rewrite price_date; [|exact O|].
    + cbn [bind]. set (cs := _ ++ dcaps ys ms ds).
      change (cap "commodity2" cs) with cur. change (cap "amount" cs) with (lit_text l).
      replace (cap "commodity1" cs) with i by (unfold cs, lit_caps; destruct (l_frac l); reflexivity).
      unfold must_find. rewrite Hf. cbn [bind].
      destruct (amount_read e _ _ (amount_is_intro e l (B " ") cur c Hl ltac:(apply (gap_sp []); constructor) Hc Hf F1 F2 F3)) as (l' & sp' & i' & c' & _).
      destruct (proj2 (parse_total l c Hl) F2 F3 F1) as (a & E). destruct (parse_sound l c a Hl E) as [E1 E2]. rewrite E.
      destruct a as [ai ac]. cbn [a_int a_com] in E1, E2. subst ai ac. cbn [bind fst snd item_at List.length pp_time pp_commodity pp_currency pp_value]. rewrite Nat.add_1_r. reflexivity.
    + intros k Hk. apply Forall_forall. intros [a b] Hin. cbn [fst]. intros ->.
      apply in_app_or in Hin as [[Hin|[Hin|Hin]]|[Hin|[]]].
      * injection Hin as <- _. cbn in Hk. intuition discriminate.
      * injection Hin as <- _. cbn in Hk. intuition discriminate.
      * unfold lit_caps in Hin. destruct (l_frac _); [contradiction|]. destruct Hin as [Hin|[]]. injection Hin as <- _. cbn in Hk. intuition discriminate.
      * injection Hin as <- _. cbn in Hk. intuition discriminate.
  - cbn [app]. rewrite <- app_assoc. cbn [app]. rewrite next_head_test. unfold parse_test.
    assert (ES : rsearch testHead (B "test " ++ sp ++ cmd) = Some ([], [("1"%string, cmd)])).
    { change (B "test " ++ sp ++ cmd) with (B "test" ++ (B " " ++ sp) ++ cmd). apply search_arg; [apply gap_sp, G|exact Hv]. }
    rewrite ES, (test_loop_read ls z Hl Hz). change (cap "1" [("1"%string, cmd)]) with cmd. cbn [bind fst snd item_at app pt_cmd pt_result]. do 3 f_equal. f_equal. cbn [List.length]. rewrite app_length. cbn [List.length]. lia.
  - cbn [app]. rewrite next_head_include. unfold parse_include.
    assert (ES : rsearch includeHead (B "include" ++ sp ++ path) = Some ([], [("1"%string, path)])) by (apply search_arg; assumption).
    rewrite ES. change (cap "1" [("1"%string, path)]) with path. cbn [bind fst snd item_at List.length]. rewrite Nat.add_1_r. reflexivity.
Qed.

(** ** lines *)
Lemma line_value v : value v -> line_text v. Proof. intros [H _]. exact H. Qed.
Lemma line_symbol y : forallb (fun c => is_word c || eqc c "."%char) y = true -> line_text y.
Proof. intros H. eapply line_of; [|exact H]. all_chars. Qed.
Ltac lines := repeat match goal with |- line_text (_ ++ _) => apply line_app end; first [apply line_lit; reflexivity|apply gap_line; assumption|apply blanks_line; assumption|apply trail_line; assumption|apply line_value; assumption|
  apply line_id; assumption|eapply line_date_is; eassumption|apply line_name; assumption|apply line_literal; assumption|apply line_symbol; assumption|apply line_word; assumption|apply line_word, digit_word_all; assumption].
Lemma line_entry e i d ls : entry_is e i d ls -> Forall line_text ls.
Proof.
  intros H. destruct H as [t ls H|sp n t ls a G Hn Ht H|sp i t ls c d G Hi Ht H|d dt sp i sp2 l sp3 cur c t HD G Hi G2 Hl G3 Hc Hf F1 F2 F3 Ht|sp cmd ls z G Hv Hl Lz Hz|sp path G Hv].
  - eapply line_transaction, H.
  - constructor; [lines|]. clear -H. induction H as [|a l a1 ls a2 H _ IH]; [constructor|]. constructor; [|exact IH]. clear IH.
    destruct H; lines.
  - constructor; [lines|]. clear -H. revert H. generalize (mkPCommodity i [] 2 false [] 0, e_default e) (c, d). intros x y H.
    induction H as [|a l a1 ls a2 H _ IH]; [constructor|]. constructor; [|exact IH]. clear IH. destruct H; lines.
  - constructor; [lines|constructor].
  - constructor; [lines|]. apply Forall_app. split; [|constructor; [exact Lz|constructor]]. eapply Forall_impl; [|exact Hl]. intros x [Hx _]. exact Hx.
  - constructor; [lines|constructor].
Qed.
Lemma line_says w : forall before fn n ls es, lines_say w before fn n ls es -> Forall line_text ls.
Proof.
  fix IH 6. intros before fn n ls es [b f k pre HB|b f k pre i d ls' rest es' HB HE Hi Hd HS|b f k pre path d ls' rest files es1 es2 HB HE Hf Hn HA HS].
  - apply line_between, HB.
  - repeat (apply Forall_app; split); [apply line_between, HB|eapply line_entry, HE|eapply IH, HS].
  - repeat (apply Forall_app; split); [apply line_between, HB|eapply line_entry, HE|eapply IH, HS].
Qed.
(** where an entry starts *)
Lemma nonspace_ends c r : uni_space c = false -> body_ends (c :: r) = true.
Proof. intros H. unfold body_ends. rewrite H. apply orb_true_r. Qed.
Lemma digit_not_uni : forall c, is_digit c = true -> uni_space c = false. Proof. all_chars. Qed.
Lemma entry_halts e i d ls rest : entry_is e i d ls -> halts (ls ++ rest).
Proof.
  intros H. destruct H as [t ls H|sp n t ls a G Hn Ht H|sp i t ls c d G Hi Ht H|d dt sp i sp2 l sp3 cur c t HD G Hi G2 Hl G3 Hc Hf F1 F2 F3 Ht|sp cmd ls z G Hv Hl Lz Hz|sp path G Hv];
    try (apply nonspace_ends; reflexivity).
  destruct (transaction_read e t ls [] O H I) as (l & ls' & -> & Hd & _). destruct l as [|c r]; [contradiction|]. apply nonspace_ends, digit_not_uni, Hd.
Qed.
Lemma between_halts pre rest : between pre -> halts rest -> halts (pre ++ rest).
Proof.
  intros [|l pre' [Hl|[(c & r & -> & Hc) _]] _] Hr; [exact Hr| |]; cbn [app halts].
  - unfold body_ends. replace (blank l) with true; [reflexivity|]. symmetry. unfold blank. apply blanks_space in Hl. rewrite forallb_forall in *. intros c Hc. unfold is_ascii_space. rewrite (Hl c Hc). reflexivity.
  - apply nonspace_ends. cbn in Hc. destruct Hc as [<-|[<-|[<-|[<-|[<-|[]]]]]]; reflexivity.
Qed.
Lemma says_halts w before fn n ls es : lines_say w before fn n ls es -> halts ls.
Proof.
  intros [b f k pre HB|b f k pre i d ls' rest es' HB HE Hi Hd HS|b f k pre path d ls' rest files es1 es2 HB HE Hf Hn HA HS].
  - rewrite <- (app_nil_r pre). apply between_halts; [exact HB|exact I].
  - apply between_halts; [exact HB|]. eapply entry_halts, HE.
  - apply between_halts; [exact HB|]. eapply entry_halts, HE.
Qed.
Lemma ended_stops i rest : ended i rest -> halts rest -> tx_stops i rest.
Proof. intros H Hh. destruct i; try exact Hh. destruct rest as [|l r]; [exact I|]. apply blanks_stop, H. Qed.
Lemma item_at_include i n : is_include (item_at n i) = is_include i. Proof. destruct i; reflexivity. Qed.

(** ** files *)
Lemma says_read w : (forall before fn es, file_says w before fn es -> file_entries w before fn es) /\
  (forall before fn n ls es, lines_say w before fn n ls es -> text_entries w before fn (mkParser ls n) es) /\
  (forall before files es, all_say w before files es -> all_entries w before files es).
Proof.
  apply says_ind.
  - intros before fn text ls es E HT HS IH. apply (fe_file w before fn text es E). unfold new_parser. rewrite (scan_written ls text HT); [exact IH|]. eapply line_says, HS.
  - intros before fn n pre HB. apply te_end. unfold next. cbn [p_lines p_nr]. rewrite <- (app_nil_r pre), next_between by exact HB. reflexivity.
  - intros before fn n pre i d ls rest es HB HE Hi Hd HS IH. eapply te_entry; [|rewrite item_at_include; exact Hi|exact IH].
    unfold next. cbn [p_lines p_nr]. rewrite next_between by exact HB. apply entry_read; [exact HE|]. apply ended_stops; [exact Hd|]. eapply says_halts, HS.
  - intros before fn n pre path d ls rest files es1 es2 HB HE Hf Hn HA IHA HS IH. eapply te_include; [|exact Hf|exact Hn|exact IHA|exact IH].
    unfold next. cbn [p_lines p_nr]. rewrite next_between by exact HB. apply (entry_read _ (IInclude path 0)); [exact HE|]. eapply says_halts, HS.
  - intros before. constructor.
  - intros before f files es1 es2 _ IH1 _ IH2. econstructor; eassumption.
Qed.
Lemma account_line_name td a l a' : account_line td a l a' -> pa_name a' = pa_name a. Proof. intros []; reflexivity. Qed.
Lemma says_named w : (forall before fn es, file_says w before fn es -> Forall named es) /\
  (forall before fn n ls es, lines_say w before fn n ls es -> Forall named es) /\
  (forall before files es, all_say w before files es -> Forall named es).
Proof.
  apply says_ind; intros; try (apply Forall_app; split); auto.
  constructor; [|assumption]. intros a Ea. cbn [ev_item] in Ea. destruct i; try discriminate. injection Ea as <-. cbn [pa_name].
  inversion e as [|sp nm t ls0 a1 G Hn Ht HL| | | |]; subst.
  assert (EN : pa_name a0 = nm).
  { clear -HL. assert (K : forall x l y, account_lines (e_today (env_after w before)) x l y -> pa_name y = pa_name x).
    { induction 1 as [|x l x1 l1 y H _ IH]; [reflexivity|]. rewrite IH. eapply account_line_name, H. }
    apply K in HL. exact HL. }
  rewrite EN. destruct (name_ok_head _ Hn) as (c & r & -> & _). discriminate.
Qed.
