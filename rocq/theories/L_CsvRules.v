(** Reading the sources of csv.rules. *)
From Verif Require Import Base M_Amount M_Regex M_Parser M_Writer M_Names M_Rules S_Ledger S_Rules L_Dec L_Regex L_RegexSound L_Parser L_RoundTrip L_Rules L_DateText S_DateText Properties_Rules2 M_Csv L_Csv2 S_CsvRules.

Lemma span_unique (f : ascii -> bool) a : forall b x y, a ++ x = b ++ y -> forallb f a = true -> forallb f b = true -> hd_not f x -> hd_not f y -> a = b /\ x = y.
Proof.
  induction a as [|c a IH]; intros [|d b] x y E Fa Fb Hx Hy; cbn [app] in E.
  - auto.
  - subst x. cbn in Hx, Fb. apply andb_true_iff in Fb as [Fb _]. congruence.
  - subst y. cbn in Hy, Fa. apply andb_true_iff in Fa as [Fa _]. congruence.
  - injection E as <- E. cbn [forallb] in Fa, Fb. apply andb_true_iff in Fa as [_ Fa]. apply andb_true_iff in Fb as [_ Fb]. destruct (IH _ _ _ E Fa Fb Hx Hy) as [-> ->]. auto.
Qed.
Lemma until_unique (c : ascii) a : forall b x y, a ++ c :: x = b ++ c :: y -> ~ In c a -> ~ In c b -> a = b /\ x = y.
Proof.
  induction a as [|d a IH]; intros [|e b] x y E Na Nb; cbn [app] in E.
  - injection E as <-. auto.
  - injection E as -> E. exfalso. apply Nb. left. reflexivity.
  - injection E as -> E. exfalso. apply Na. left. reflexivity.
  - injection E as <- E. destruct (IH _ _ _ E) as [-> ->]; [intros I; apply Na; right; exact I|intros I; apply Nb; right; exact I|]. auto.
Qed.
(** the only place for a character that occurs once *)
Lemma once_unique (c : ascii) a b x y : a ++ c :: x = b ++ c :: y -> ~ In c a -> ~ In c x -> a = b /\ x = y.
Proof.
  revert b. induction a as [|d a IH]; intros [|e b] E Na Nx; cbn [app] in E.
  - injection E as <-. auto.
  - injection E as <- E. exfalso. apply Nx. rewrite E. apply in_elt.
  - injection E as -> E. exfalso. apply Na. left. reflexivity.
  - injection E as <- E. destruct (IH _ E) as [-> ->]; [intros I; apply Na; right; exact I|exact Nx|]. auto.
Qed.
Lemma drop_space_app s sp : forallb is_ascii_space sp = true -> drop_space (s ++ sp) = if forallb is_ascii_space s then [] else drop_space s ++ sp.
Proof.
  intros H. induction s as [|c s IH]; cbn [app drop_space forallb].
  - clear -H. induction sp as [|c sp IH]; [reflexivity|]. cbn [forallb drop_space] in *. apply andb_true_iff in H as [-> H]. auto.
  - destruct (is_ascii_space c); cbn [andb]; [exact IH|reflexivity].
Qed.
Lemma drop_all s : forallb is_ascii_space s = true -> drop_space s = [].
Proof. induction s as [|c s IH]; [reflexivity|]. cbn [forallb drop_space]. intros H. apply andb_true_iff in H as [-> H]. auto. Qed.
Lemma drop_lead sp s : forallb is_ascii_space sp = true -> drop_space (sp ++ s) = drop_space s.
Proof. induction sp as [|c sp IH]; [reflexivity|]. cbn [forallb drop_space app]. intros H. apply andb_true_iff in H as [-> H]. auto. Qed.
Lemma forallb_rev {A} (f : A -> bool) l : forallb f (rev l) = forallb f l.
Proof. induction l as [|a l IH]; [reflexivity|]. cbn [rev forallb]. rewrite forallb_app, IH. cbn. rewrite andb_true_r. apply andb_comm. Qed.
Lemma trim_lead sp s : forallb is_ascii_space sp = true -> trim_space (sp ++ s) = trim_space s.
Proof. intros H. unfold trim_space. rewrite drop_lead by exact H. reflexivity. Qed.
Lemma trim_trail s sp : forallb is_ascii_space sp = true -> trim_space (s ++ sp) = trim_space s.
Proof.
  intros H. unfold trim_space. rewrite drop_space_app by exact H. destruct (forallb is_ascii_space s) eqn:E; [rewrite (drop_all s E); reflexivity|].
  rewrite rev_app_distr, drop_lead; [reflexivity|rewrite forallb_rev; exact H].
Qed.
Lemma spaces_ascii sp : forallb is_space sp = true -> forallb is_ascii_space sp = true.
Proof. intros H. apply forallb_forall. intros c I. apply space_ascii. exact (proj1 (forallb_forall _ _) H c I). Qed.
(** an expression that the matcher may have started early *)
Lemma trim_rest sp' x sp re sp5 : sp' ++ x = sp ++ re ++ sp5 -> forallb is_space sp' = true -> spaces sp -> tight re -> spaces sp5 -> trim_space x = re.
Proof.
  intros E Hs' [Hs _] Ht [H5 _]. apply spaces_ascii in Hs', Hs, H5. rewrite <- (trim_lead sp' x Hs'), E, trim_lead, trim_trail by assumption. exact Ht.
Qed.

(** ** what a match of the expressions says *)
Lemma mt_end_inv s s' n : mt REnd s s' n -> s = [] /\ s' = [] /\ n = [].
Proof. intros H. inversion H; subst. auto. Qed.
Lemma mt_char_inv c s s' n : mt (rchar c) s s' n -> s = c :: s' /\ n = [].
Proof. intros H. unfold rchar in H. apply mt_set_inv in H as (d & -> & E & ->). apply eqc_eq in E. subst d. auto. Qed.
Lemma mt_any_inv s s' n : mt (rplus any_) s s' n -> exists run, run <> [] /\ s = run ++ s' /\ n = [].
Proof. intros H. unfold any_ in H. apply mt_plus_set_inv in H as (run & N & E & _ & ->). exists run. auto. Qed.
Inductive direct_match (t : bytes) : caps -> Prop :=
| dm_col : t <> [] -> forallb is_digit t = true -> direct_match t [("rowIdx"%string, t)]
| dm_extract ds sp out sp' re : ds <> [] -> forallb is_digit ds = true -> sp <> [] -> forallb is_space sp = true -> out <> [] -> sp' <> [] -> forallb is_space sp' = true -> re <> [] ->
    t = ds ++ sp ++ quote :: out ++ quote :: sp' ++ re -> direct_match t [("rex"%string, re); ("out"%string, out); ("rowIdx"%string, ds)].
Inductive derived_match (t : bytes) : caps -> Prop :=
| vm_code code : t = quote :: code ++ [quote] -> derived_match t [("code"%string, code)]
| vm_when code sp c sp' re : sp <> [] -> forallb is_space sp = true -> c <> [] -> forallb is_word c = true -> sp' <> [] -> forallb is_space sp' = true -> re <> [] ->
    t = quote :: code ++ quote :: sp ++ c ++ sp' ++ re -> derived_match t [("condRex"%string, re); ("condField"%string, c); ("code"%string, code)].
Inductive field_match (line : bytes) : caps -> Prop :=
| fm_of sp1 f sp2 t n : sp1 <> [] -> forallb is_space sp1 = true -> f <> [] -> forallb is_word f = true -> sp2 <> [] -> forallb is_space sp2 = true ->
    line = sp1 ++ f ++ sp2 ++ t -> direct_match t n \/ derived_match t n -> field_match line (n ++ [("field"%string, f)]).
Ltac grp H t n := let E := fresh "E" in apply mt_grp_inv in H as (t & n & E & H & ->).
Lemma field_inv line s' n : mt fieldREX line s' n -> s' = [] /\ field_match line n.
Proof.
  unfold fieldREX. cbn [rseq]. intros H. apply mt_seq_inv in H as (s1 & n1 & n2 & H1 & H & ->). apply mt_plus_set_inv in H1 as (sp1 & N1 & -> & F1 & ->).
  apply mt_seq_inv in H as (s2 & n1 & n3 & H1 & H & ->). apply mt_grp_inv in H1 as (f & n' & E & H1 & ->). apply mt_plus_set_inv in H1 as (f' & Nf & E2 & Ff & ->). assert (f' = f) by (rewrite E in E2; apply app_inv_tail in E2; congruence). subst f' s1. clear E2.
  apply mt_seq_inv in H as (s3 & n1 & n4 & H1 & H & ->). apply mt_plus_set_inv in H1 as (sp2 & N2 & -> & F2 & ->).
  apply mt_seq_inv in H as (s4 & n1 & n5 & H1 & H & ->). apply mt_end_inv in H as (-> & -> & ->). split; [reflexivity|]. rewrite !app_nil_r. cbn [app].
  apply (fm_of _ sp1 f sp2 s3 n1); try assumption; [reflexivity|]. clear -H1. apply mt_alt_inv in H1 as [H|H]; [left|right].
  - unfold directFieldREX in H. cbn [rseq] in H. apply mt_seq_inv in H as (s1 & n2 & n3 & H1 & H & ->). apply mt_grp_inv in H1 as (ds & n' & E & H1 & ->). apply mt_plus_set_inv in H1 as (ds' & Nd & E2 & Fd & ->). assert (ds' = ds) by (rewrite E in E2; apply app_inv_tail in E2; congruence). subst ds' s3. clear E2.
    apply mt_opt_inv in H as [H|[E ->]].
    + apply mt_seq_inv in H as (s2 & m1 & m2 & H1 & H & ->). apply mt_plus_set_inv in H1 as (sp & N & -> & F & ->).
      apply mt_seq_inv in H as (s3 & m1 & m3 & H1 & H & ->). apply mt_char_inv in H1 as [-> ->].
      apply mt_seq_inv in H as (s4 & m1 & m4 & H1 & H & ->). apply mt_grp_inv in H1 as (out & n' & E & H1 & ->). apply mt_any_inv in H1 as (out' & No & E2 & ->). assert (out' = out) by (rewrite E in E2; apply app_inv_tail in E2; congruence). subst out' s3. clear E2.
      apply mt_seq_inv in H as (s5 & m1 & m5 & H1 & H & ->). apply mt_char_inv in H1 as [-> ->].
      apply mt_seq_inv in H as (s6 & m1 & m6 & H1 & H & ->). apply mt_plus_set_inv in H1 as (sp' & N' & -> & F' & ->).
      apply mt_grp_inv in H as (re & n' & E & H & ->). apply mt_any_inv in H as (re' & Nr & E2 & ->). rewrite app_nil_r in E, E2. subst s6 re'. cbn [app]. apply (dm_extract _ ds sp out sp' re); try assumption. reflexivity.
    + subst s1. rewrite app_nil_r. cbn [app]. constructor; assumption.
  - unfold derivedFieldREX in H. cbn [rseq] in H. apply mt_seq_inv in H as (s1 & n2 & n3 & H1 & H & ->). apply mt_char_inv in H1 as [-> ->].
    apply mt_seq_inv in H as (s2 & m1 & m2 & H1 & H & ->). apply mt_grp_inv in H1 as (cd & n' & E & H1 & ->). unfold any_ in H1. apply mt_star_set_inv in H1 as (cd' & E2 & _ & ->). subst s1. clear E2.
    apply mt_seq_inv in H as (s3 & m1 & m3 & H1 & H & ->). apply mt_char_inv in H1 as [-> ->].
    apply mt_opt_inv in H as [H|[E ->]].
    + apply mt_seq_inv in H as (s2 & m1 & m2 & H1 & H & ->). apply mt_plus_set_inv in H1 as (sp & N & -> & F & ->).
      apply mt_seq_inv in H as (s4 & m1 & m4 & H1 & H & ->). apply mt_grp_inv in H1 as (c & n' & E & H1 & ->). apply mt_plus_set_inv in H1 as (c' & Nc & E2 & Fc & ->). assert (c' = c) by (rewrite E in E2; apply app_inv_tail in E2; congruence). subst c' s2. clear E2.
      apply mt_seq_inv in H as (s6 & m1 & m6 & H1 & H & ->). apply mt_plus_set_inv in H1 as (sp' & N' & -> & F' & ->).
      apply mt_grp_inv in H as (re & n' & E & H & ->). apply mt_any_inv in H as (re' & Nr & E2 & ->). rewrite app_nil_r in E, E2. subst s6 re'. cbn [app]. apply (vm_when _ cd sp c sp' re); try assumption. reflexivity.
    + subst s3. cbn [app]. constructor. reflexivity.
Qed.

(** ** there is a match *)
Definition has (r : rx) (s s' : bytes) : Prop := exists n, mt r s s' n.
Lemma has_seq a b s1 s2 s3 : has a s1 s2 -> has b s2 s3 -> has (RSeq a b) s1 s3.
Proof. intros [n1 H1] [n2 H2]. eexists. econstructor; eassumption. Qed.
Lemma has_grp x a s s' : has a s s' -> has (RGrp x a) s s'.
Proof. intros [n H]. eexists. constructor. exact H. Qed.
Lemma has_char c s : has (rchar c) (c :: s) s.
Proof. eexists. unfold rchar. constructor. apply eqc_same. Qed.
Lemma has_star f run s : forallb f run = true -> has (RStar (RSet f)) (run ++ s) s.
Proof.
  induction run as [|c run IH]; intros F; [eexists; constructor|]. cbn [forallb app] in *. apply andb_true_iff in F as [F1 F2]. destruct (IH F2) as [n H]. eexists. econstructor; [constructor; exact F1|exact H].
Qed.
Lemma has_plus f run s : run <> [] -> forallb f run = true -> has (rplus (RSet f)) (run ++ s) s.
Proof.
  destruct run as [|c run]; intros N F; [congruence|]. cbn [forallb app] in *. apply andb_true_iff in F as [F1 F2]. unfold rplus. eapply has_seq; [eexists; constructor; exact F1|apply has_star, F2].
Qed.
Lemma any_of run : line_text run -> forallb (fun c => negb (code c =? 10)) run = true.
Proof. intros H. apply forallb_forall. intros c I. pose proof (proj1 (Forall_forall _ _) H c I) as [Y _]. cbn beta in Y. destruct (Z.eqb_spec (code c) 10); [lia|reflexivity]. Qed.
Lemma has_any run s : run <> [] -> line_text run -> has (rplus any_) (run ++ s) s.
Proof. intros N L. apply has_plus; [exact N|]. apply any_of, L. Qed.
Lemma has_any0 run s : line_text run -> has (RStar any_) (run ++ s) s.
Proof. intros L. apply has_star. apply any_of, L. Qed.
Lemma has_end : has REnd [] []. Proof. eexists. constructor. Qed.
Lemma has_prefix r s s' : has r s s' -> exists rest cs, rprefix r s = Some (rest, cs).
Proof.
  intros [n H]. unfold rprefix. destruct (rmatch r s [] (fun s'0 cs => Some (s'0, cs))) as [[rest cs]|] eqn:E; [eauto|]. exfalso.
  eapply (rmatch_complete _ _ _ _ H _ [] (fun s'0 cs => Some (s'0, cs))); [|discriminate|exact E]. intros ? ? ? HH. discriminate HH.
Qed.
Lemma has_direct t : (forall ds, t = ds -> ds <> [] -> forallb is_digit ds = true -> has directFieldREX t []) . 
Proof.
  intros ds -> N F. unfold directFieldREX. cbn [rseq]. eapply has_seq; [apply has_grp; rewrite <- (app_nil_r ds); apply has_plus; assumption|]. eexists. apply mt_opt_none.
Qed.
Lemma has_extract ds sp out sp' re : ds <> [] -> forallb is_digit ds = true -> spaces sp -> sp <> [] -> out <> [] -> line_text out -> spaces sp' -> sp' <> [] -> re <> [] -> line_text re ->
  has directFieldREX (ds ++ sp ++ quotes out ++ sp' ++ re) [].
Proof.
  intros N F [S _] Ns No Lo [S' _] Ns' Nr Lr. unfold directFieldREX, quotes. cbn [rseq]. eapply has_seq; [apply has_grp, has_plus; assumption|].
  assert (K : forall x, has (rseq [rplus s_; rchar quote; RGrp "out" (rplus any_); rchar quote; rplus s_; RGrp "rex" (rplus any_)]) x [] -> has (ROpt (rseq [rplus s_; rchar quote; RGrp "out" (rplus any_); rchar quote; rplus s_; RGrp "rex" (rplus any_)])) x []) by (intros x [n H]; eexists; apply mt_opt_some, H).
  apply K. cbn [rseq]. eapply has_seq; [apply has_plus; assumption|]. cbn [app]. eapply has_seq; [apply has_char|]. rewrite <- app_assoc.
  eapply has_seq; [apply has_grp, has_any; assumption|]. cbn [app]. eapply has_seq; [apply has_char|]. eapply has_seq; [apply has_plus; assumption|]. apply has_grp. rewrite <- (app_nil_r re). apply has_any; assumption.
Qed.
Lemma has_code out : line_text out -> has derivedFieldREX (quotes out) [].
Proof.
  intros L. unfold derivedFieldREX, quotes. cbn [rseq app]. eapply has_seq; [apply has_char|]. eapply has_seq; [apply has_grp, has_any0, L|]. eapply has_seq; [apply has_char|]. eexists. apply mt_opt_none.
Qed.
Lemma has_when out sp c sp' re : line_text out -> spaces sp -> sp <> [] -> is_words c -> spaces sp' -> sp' <> [] -> re <> [] -> line_text re -> has derivedFieldREX (quotes out ++ sp ++ c ++ sp' ++ re) [].
Proof.
  intros Lo [S _] Ns [Nc Fc] [S' _] Ns' Nr Lr. unfold derivedFieldREX, quotes. cbn [rseq app]. rewrite <- app_assoc. eapply has_seq; [apply has_char|]. eapply has_seq; [apply has_grp, has_any0, Lo|]. cbn [app]. eapply has_seq; [apply has_char|].
  assert (K : forall x, has (rseq [rplus s_; RGrp "condField" (rplus w_); rplus s_; RGrp "condRex" (rplus any_)]) x [] -> has (ROpt (rseq [rplus s_; RGrp "condField" (rplus w_); rplus s_; RGrp "condRex" (rplus any_)])) x []) by (intros x [n H]; eexists; apply mt_opt_some, H).
  apply K. cbn [rseq]. eapply has_seq; [apply has_plus; assumption|]. eapply has_seq; [apply has_grp, has_plus; assumption|]. eapply has_seq; [apply has_plus; assumption|]. apply has_grp. rewrite <- (app_nil_r re). apply has_any; assumption.
Qed.
Lemma has_field sp1 f sp2 t : spaces sp1 -> sp1 <> [] -> is_words f -> spaces sp2 -> sp2 <> [] -> has directFieldREX t [] \/ has derivedFieldREX t [] -> has fieldREX (sp1 ++ f ++ sp2 ++ t) [].
Proof.
  intros [S1 _] N1 [Nf Ff] [S2 _] N2 H. unfold fieldREX. cbn [rseq]. eapply has_seq; [apply has_plus; assumption|]. eapply has_seq; [apply has_grp, has_plus; assumption|]. eapply has_seq; [apply has_plus; assumption|].
  eapply has_seq; [|apply has_end]. destruct H as [[n H]|[n H]]; eexists; [apply mt_alt_l, H|apply mt_alt_r, H].
Qed.

(** ** a line is read as written *)
Lemma word_not_space : forall c, is_word c = true -> is_space c = false. Proof. all_chars. Qed.
Lemma space_not_word : forall c, is_space c = true -> is_word c = false. Proof. all_chars. Qed.
Lemma digit_not_space : forall c, is_digit c = true -> is_space c = false. Proof. all_chars. Qed.
Lemma space_not_digit : forall c, is_space c = true -> is_digit c = false. Proof. all_chars. Qed.
Lemma hd_all (f g : ascii -> bool) s x : (forall c, f c = true -> g c = false) -> s <> [] -> forallb f s = true -> hd_not g (s ++ x).
Proof. intros H N F. destruct s as [|c s]; [congruence|]. cbn in F |- *. apply andb_true_iff in F as [F _]. apply H, F. Qed.
Lemma digits_no_quote s : forallb is_digit s = true -> ~ In quote s.
Proof. intros F I. pose proof (proj1 (forallb_forall _ _) F _ I) as X. discriminate X. Qed.
Lemma spaces_no_quote s : forallb is_space s = true -> ~ In quote s.
Proof. intros F I. pose proof (proj1 (forallb_forall _ _) F _ I) as X. discriminate X. Qed.
Lemma words_no_quote s : forallb is_word s = true -> ~ In quote s.
Proof. intros F I. pose proof (proj1 (forallb_forall _ _) F _ I) as X. discriminate X. Qed.
Lemma field_unique line cs sp1 f sp2 t : field_match line cs -> line = sp1 ++ f ++ sp2 ++ t -> spaces sp1 -> sp1 <> [] -> is_words f -> spaces sp2 -> sp2 <> [] -> hd_not is_space t ->
  exists n, cs = n ++ [("field"%string, f)] /\ (direct_match t n \/ derived_match t n).
Proof.
  intros [p1 g p2 u n A1 A2 A3 A4 A5 A6 A7 A8] E [S1 _] N1 [Nf Ff] [S2 _] N2 Ht. rewrite A7 in E.
  apply (span_unique is_space) in E as [-> E]; auto; try (eapply hd_all; [exact word_not_space|assumption|assumption]).
  apply (span_unique is_word) in E as [-> E]; auto; try (eapply hd_all; [exact space_not_word|assumption|assumption]).
  apply (span_unique is_space) in E as [-> E]; auto.
  - subst u. exists n. auto.
  - destruct A8 as [[B1 B2|ds sp out sp' re B1 B2 B3 B4 B5 B6 B7 B8 ->]|[code ->|code sp c sp' re B1 B2 B3 B4 B5 B6 B7 ->]]; try reflexivity.
    + rewrite <- (app_nil_r u). eapply hd_all; [exact digit_not_space|assumption|assumption].
    + eapply hd_all; [exact digit_not_space|assumption|assumption].
Qed.
Lemma digits_val_nonneg ds : forallb is_digit ds = true -> 0 <= digits_val ds.
Proof. intros F. destruct (digits_text ds F) as (es & H & -> & _). unfold dtext. rewrite digits_val_num by exact H. apply num_bound, H. Qed.
Lemma digit_minus : forall c, is_digit c = true -> eqc c "-"%char = false. Proof. all_chars. Qed.
Lemma digit_plus : forall c, is_digit c = true -> eqc c "+"%char = false. Proof. all_chars. Qed.
Lemma digit_sign c s : is_digit c = true -> split_sign (c :: s) = (false, c :: s).
Proof. intros H. cbn [split_sign]. rewrite (digit_minus c H), (digit_plus c H). reflexivity. Qed.
Lemma atoi_digits ds i : number ds i -> atoi_ok ds = Ok i.
Proof.
  intros (N & F & -> & Hm). unfold atoi_ok. assert (E : split_sign ds = (false, ds)). { destruct ds as [|c ds]; [congruence|]. cbn [forallb] in F. apply andb_true_iff in F as [F _]. apply digit_sign, F. }
  rewrite E. cbn [fst snd]. rewrite F. assert (L : (List.length ds =? 0)%nat = false) by (destruct ds; [congruence|reflexivity]). rewrite L. cbn [negb orb].
  pose proof (digits_val_nonneg ds F) as P. assert (Q : (int64_min <=? digits_val ds) && (digits_val ds <=? int64_max) = true). { apply andb_true_iff. split; apply Z.leb_le; [|exact Hm]. unfold int64_min. lia. }
  rewrite Q. reflexivity.
Qed.
Lemma hd_digits ds x : number ds x -> forall t, hd_not is_space (ds ++ t).
Proof. intros (N & F & _) t. eapply hd_all; [exact digit_not_space|assumption|assumption]. Qed.
Lemma quotes_app s t : quotes s ++ t = quote :: s ++ quote :: t.
Proof. unfold quotes. cbn [app]. rewrite <- app_assoc. reflexivity. Qed.
Lemma cline_no_space t : hd_not is_space (quotes t). Proof. reflexivity. Qed.
Lemma unquoted_app re sp : unquoted re -> spaces sp -> re ++ sp <> [] /\ line_text (re ++ sp) /\ ~ In quote (re ++ sp).
Proof.
  intros (N & L & Q) [S Ls]. split; [destruct re; [congruence|discriminate]|]. split; [apply Forall_app; auto|]. intros I. apply in_app_iff in I as [I|I]; [auto|]. eapply spaces_no_quote; eassumption.
Qed.
Section Valid.
Variable valid : bytes -> bool.
Lemma read_line l line : cline_is l line -> cline_valid valid l ->
  exists rest cs, rprefix fieldREX line = Some (rest, cs) /\ cap "field" cs = cline_name l /\ scan_field valid cs = Ok (cline_field l).
Proof.
  intros H V. destruct H as [sp1 n sp2 ds i S1 N1 W S2 N2 D|sp1 n sp2 ds i sp3 out sp4 re sp5 S1 N1 W S2 N2 D S3 N3 U T S4 N4 U' T' S5|sp1 n sp2 out S1 N1 W S2 N2 U|sp1 n sp2 out sp3 c sp4 re sp5 S1 N1 W S2 N2 U S3 N3 W' S4 N4 U' T' S5].
  - assert (M : has fieldREX (sp1 ++ n ++ sp2 ++ ds) []). { apply has_field; auto. left. destruct D as (Nd & Fd & _). eapply has_direct; auto. }
    apply has_prefix in M as (rest & cs & M). exists rest, cs. split; [exact M|]. apply rprefix_sound, field_inv in M as [_ M].
    destruct (field_unique _ _ _ _ _ _ M eq_refl S1 N1 W S2 N2) as (m & -> & K). { rewrite <- (app_nil_r ds). eapply hd_digits, D. }
    destruct D as (Nd & Fd & Dv & Dm). destruct K as [[B1 B2|ds' sp out sp' re B1 B2 B3 B4 B5 B6 B7 B8 E]|[code E|code sp c sp' re B1 B2 B3 B4 B5 B6 B7 E]].
    + split; [reflexivity|]. unfold scan_field. cbn [app]. change (cap "code" [("rowIdx"%string, ds); ("field"%string, n)]) with (@nil ascii). change (cap "rowIdx" [("rowIdx"%string, ds); ("field"%string, n)]) with ds. rewrite (atoi_digits ds i) by (repeat split; assumption). reflexivity.
    + exfalso. apply (digits_no_quote ds Fd). rewrite E. rewrite !in_app_iff. right. right. left. reflexivity.
    + exfalso. apply (digits_no_quote ds Fd). rewrite E. left. reflexivity.
    + exfalso. apply (digits_no_quote ds Fd). rewrite E. left. reflexivity.
  - destruct (unquoted_app re sp5 U' S5) as (R1 & R2 & R3). destruct U as (U1 & U2 & U3). 
    assert (M : has fieldREX (sp1 ++ n ++ sp2 ++ ds ++ sp3 ++ quotes out ++ sp4 ++ re ++ sp5) []). { apply has_field; auto. left. destruct D as (Nd & Fd & _). apply has_extract; auto. }
    apply has_prefix in M as (rest & cs & M). exists rest, cs. split; [exact M|]. apply rprefix_sound, field_inv in M as [_ M].
    destruct (field_unique _ _ _ _ _ _ M eq_refl S1 N1 W S2 N2 (hd_digits ds i D _)) as (m & -> & K).
    pose proof (atoi_digits ds i D) as A. destruct D as (Nd & Fd & Dv & Dm). destruct K as [[B1 B2|ds' sp out' sp' re' B1 B2 B3 B4 B5 B6 B7 B8 E]|[code E|code sp c sp' re' B1 B2 B3 B4 B5 B6 B7 E]].
    + exfalso. apply (digits_no_quote _ B2). unfold quotes. rewrite !in_app_iff. right. right. left. left. left. reflexivity.
    + apply (span_unique is_digit) in E as [<- E]; auto; try (eapply hd_all; [exact space_not_digit|assumption|]); try assumption; try apply S3.
      apply (span_unique is_space) in E as [<- E]; auto; try apply S3; try reflexivity. rewrite quotes_app in E. injection E as E.
      apply once_unique in E as [<- E]; [|exact U3|intros I; apply in_app_iff in I as [I|I]; [eapply spaces_no_quote; [apply S4|exact I]|auto]].
      split; [reflexivity|]. unfold scan_field. cbn [app].
      change (cap "code" [("rex"%string, re'); ("out"%string, out); ("rowIdx"%string, ds); ("field"%string, n)]) with (@nil ascii).
      change (cap "rowIdx" [("rex"%string, re'); ("out"%string, out); ("rowIdx"%string, ds); ("field"%string, n)]) with ds.
      change (cap "rex" [("rex"%string, re'); ("out"%string, out); ("rowIdx"%string, ds); ("field"%string, n)]) with re'.
      change (cap "out" [("rex"%string, re'); ("out"%string, out); ("rowIdx"%string, ds); ("field"%string, n)]) with out.
      rewrite A. cbn [bind]. pose proof (trim_rest sp' re' sp4 re sp5 (eq_sym E) B7 S4 T' S5) as Q. destruct re' as [|z re']; [congruence|]. rewrite Q. unfold compile. cbn [cline_valid] in V. rewrite V. cbn [bind]. rewrite T. reflexivity.
    + exfalso. destruct ds as [|z ds]; [congruence|]. injection E as -> _. discriminate Fd.
    + exfalso. destruct ds as [|z ds]; [congruence|]. injection E as -> _. discriminate Fd.
  - destruct U as (U1 & U2 & U3). assert (M : has fieldREX (sp1 ++ n ++ sp2 ++ quotes out) []) by (apply has_field; auto; right; apply has_code; auto).
    apply has_prefix in M as (rest & cs & M). exists rest, cs. split; [exact M|]. apply rprefix_sound, field_inv in M as [_ M].
    destruct (field_unique _ _ _ _ _ _ M eq_refl S1 N1 W S2 N2 (cline_no_space _)) as (m & -> & K).
    destruct K as [[B1 B2|ds' sp out' sp' re' B1 B2 B3 B4 B5 B6 B7 B8 E]|[code E|code sp c sp' re' B1 B2 B3 B4 B5 B6 B7 E]].
    + discriminate B2.
    + exfalso. destruct ds' as [|z ds]; [congruence|]. injection E as <- _. discriminate B2.
    + unfold quotes in E. injection E as E. apply app_inv_tail in E. subst code. split; [reflexivity|]. idtac. unfold scan_field. cbn [app]. change (cap "code" [("code"%string, out); ("field"%string, n)]) with out. destruct out; [congruence|]. reflexivity.
    + exfalso. unfold quotes in E. injection E as E. apply once_unique in E as [_ E]; [|exact U3|intros []]. destruct sp; [congruence|discriminate].
  - destruct (unquoted_app re sp5 U' S5) as (R1 & R2 & R3). destruct U as (U1 & U2 & U3). 
    assert (M : has fieldREX (sp1 ++ n ++ sp2 ++ quotes out ++ sp3 ++ c ++ sp4 ++ re ++ sp5) []) by (apply has_field; auto; right; apply has_when; auto).
    apply has_prefix in M as (rest & cs & M). exists rest, cs. split; [exact M|]. apply rprefix_sound, field_inv in M as [_ M].
    destruct (field_unique _ _ _ _ _ _ M eq_refl S1 N1 W S2 N2 ltac:(reflexivity)) as (m & -> & K).
    destruct W' as [Nc Fc]. assert (Q : ~ In quote (sp3 ++ c ++ sp4 ++ re ++ sp5)).
    { intros I. apply in_app_iff in I as [I|I]; [eapply spaces_no_quote; [apply S3|exact I]|]. apply in_app_iff in I as [I|I]; [eapply words_no_quote; [exact Fc|exact I]|]. apply in_app_iff in I as [I|I]; [eapply spaces_no_quote; [apply S4|exact I]|auto]. }
    destruct K as [[B1 B2|ds' sp out' sp' re' B1 B2 B3 B4 B5 B6 B7 B8 E]|[code E|code sp c' sp' re' B1 B2 B3 B4 B5 B6 B7 E]].
    + discriminate B2.
    + exfalso. destruct ds' as [|z ds]; [congruence|]. injection E as <- _. discriminate B2.
    + exfalso. rewrite quotes_app in E. injection E as E. apply once_unique in E as [_ E]; [|exact U3|exact Q]. destruct sp3; [congruence|discriminate].
    + rewrite quotes_app in E. injection E as E. apply once_unique in E as [<- E]; [|exact U3|exact Q].
      apply (span_unique is_space) in E as [<- E]; auto; try (eapply hd_all; [exact word_not_space|assumption|assumption]); try apply S3.
      apply (span_unique is_word) in E as [<- E]; auto; try (eapply hd_all; [exact space_not_word|assumption|]); try assumption; try apply S4.
      split; [reflexivity|]. unfold scan_field. cbn [app].
      change (cap "code" [("condRex"%string, re'); ("condField"%string, c); ("code"%string, out); ("field"%string, n)]) with out.
      change (cap "condField" [("condRex"%string, re'); ("condField"%string, c); ("code"%string, out); ("field"%string, n)]) with c.
      change (cap "condRex" [("condRex"%string, re'); ("condField"%string, c); ("code"%string, out); ("field"%string, n)]) with re'.
      rewrite (trim_rest sp' re' sp4 re sp5 (eq_sym E) B6 S4 T' S5). unfold compile. cbn [cline_valid] in V. rewrite V. destruct out as [|z out]; [congruence|]. destruct c as [|y c]; [congruence|]. reflexivity.
Qed.
End Valid.
