(** Reading the sources of csv.rules: sources and files. *)
From Verif Require Import Base M_Amount M_Regex M_Parser M_Writer M_Names M_Rules S_Ledger S_Rules L_Dec L_Regex L_RegexSound L_Parser L_RoundTrip L_Rules Properties_Rules2 M_Csv S_CsvRules L_CsvRules.

Inductive source_match (line : bytes) : caps -> Prop :=
| sm_name n sp : n <> [] -> forallb is_word n = true -> forallb is_space sp = true -> line = n ++ sp -> source_match line [("source"%string, n)]
| sm_skip n sp1 ds sp2 : n <> [] -> forallb is_word n = true -> sp1 <> [] -> forallb is_space sp1 = true -> ds <> [] -> forallb is_digit ds = true -> forallb is_space sp2 = true ->
    line = n ++ sp1 ++ ds ++ sp2 -> source_match line [("skip"%string, ds); ("source"%string, n)].
Lemma source_inv line s' n : mt sourceREX line s' n -> source_match line n.
Proof.
  unfold sourceREX. cbn [rseq]. intros H. apply mt_seq_inv in H as (s2 & n1 & n3 & H1 & H & ->). apply mt_grp_inv in H1 as (f & n' & E & H1 & ->). apply mt_plus_set_inv in H1 as (f' & Nf & E2 & Ff & ->). assert (f' = f) by (rewrite E in E2; apply app_inv_tail in E2; congruence). subst f' line. clear E2.
  apply mt_seq_inv in H as (s3 & m1 & m3 & H1 & H & ->). apply mt_seq_inv in H as (s4 & m2 & m4 & H2 & H & ->). apply mt_end_inv in H as (-> & -> & ->). apply mt_star_set_inv in H2 as (sp2 & -> & F2 & ->). rewrite app_nil_r. cbn [app].
  apply mt_opt_inv in H1 as [H|[E ->]].
  - apply mt_seq_inv in H as (s3 & m2 & m3 & H1 & H & ->). apply mt_plus_set_inv in H1 as (sp & N & -> & F & ->). apply mt_grp_inv in H as (ds & n' & E & H & ->). apply mt_plus_set_inv in H as (ds' & Nd & E2 & Fd & ->). assert (ds' = ds) by (rewrite E in E2; apply app_inv_tail in E2; congruence). subst ds' s3.
    cbn [app]. apply (sm_skip _ f sp ds sp2); auto. rewrite app_nil_r. reflexivity.
  - subst s2. rewrite app_nil_r. cbn [app]. apply (sm_name _ f sp2); auto.
Qed.
Lemma read_source_line n sp1 ds i sp2 : is_words n -> spaces sp1 -> sp1 <> [] -> number ds i -> spaces sp2 ->
  exists rest cs, rprefix sourceREX (n ++ sp1 ++ ds ++ sp2) = Some (rest, cs) /\ cap "source" cs = n /\ cap "skip" cs = ds.
Proof.
  intros [Nn Fn] [S1 L1] N1 D [S2 L2]. pose proof (hd_digits ds i D sp2) as Hd. destruct D as (Nd & Fd & _).
  assert (M : has sourceREX (n ++ sp1 ++ ds ++ sp2) []).
  { unfold sourceREX. cbn [rseq]. eapply has_seq; [apply has_grp, has_plus; assumption|].
    assert (K : forall x y, has (RSeq (rplus s_) (RGrp "skip" (rplus d_))) x y -> has (ROpt (RSeq (rplus s_) (RGrp "skip" (rplus d_)))) x y) by (intros x y [m H]; eexists; apply mt_opt_some, H).
    eapply has_seq; [apply K; eapply has_seq; [apply has_plus; assumption|apply has_grp, has_plus; assumption]|]. eapply has_seq; [|apply has_end]. rewrite <- (app_nil_r sp2). apply has_star, S2. }
  apply has_prefix in M as (rest & cs & M). exists rest, cs. split; [exact M|]. apply rprefix_sound, source_inv in M.
  assert (Hs : forall x, hd_not is_word (sp1 ++ x)) by (intros x; eapply hd_all; [exact space_not_word|assumption|assumption]).
  inversion M as [n' sp A1 A2 A3 E|n' sp1' ds' sp2' A1 A2 A3 A4 A5 A6 A7 E]; subst cs.
  - exfalso. apply (span_unique is_word) in E as [-> E]; auto.
    + assert (C : forallb is_space ds = true). { rewrite <- E, !forallb_app in A3. apply andb_true_iff in A3 as [_ A3]. apply andb_true_iff in A3 as [A3 _]. exact A3. }
      destruct ds as [|z ds]; [congruence|]. cbn in C, Fd. apply andb_true_iff in C as [C _]. apply andb_true_iff in Fd as [Fd _]. rewrite (digit_not_space z Fd) in C. discriminate.
    + eapply hd_of; [exact space_not_word|exact A3].
  - apply (span_unique is_word) in E as [-> E]; auto; [|eapply hd_all; [exact space_not_word|assumption|assumption]].
    apply (span_unique is_space) in E as [-> E]; auto; [|eapply hd_all; [exact digit_not_space|assumption|assumption]].
    apply (span_unique is_digit) in E as [-> E]; auto; try (eapply hd_of; [exact space_not_digit|assumption]). all: reflexivity || auto.
Qed.
(** a line without blank at the start is no field *)
Lemma no_field line : hd_not is_space line -> rprefix fieldREX line = None.
Proof.
  intros H. destruct (rprefix fieldREX line) as [[rest cs]|] eqn:E; [|reflexivity]. exfalso. apply rprefix_sound, field_inv in E as [_ E]. destruct E as [sp1 f sp2 t n A1 A2 A3 A4 A5 A6 E A8].
  destruct sp1 as [|z sp1]; [congruence|]. subst line. cbn in H, A2. rewrite H in A2. discriminate.
Qed.
Section Valid.
Variable valid : bytes -> bool.
Lemma fields_aset fm k v n : fields_of (aset k v fm) n = if eqb_bytes n k then v else fields_of fm n.
Proof.
  unfold fields_of. destruct (eqb_bytes n k) eqn:E.
  - apply eqb_bytes_true in E. subst n. rewrite alookup_same. reflexivity.
  - rewrite alookup_other by exact E. reflexivity.
Qed.
Lemma scan_fields_run ls bls : Forall2 cline_is ls bls -> Forall (cline_valid valid) ls -> forall fm rest, hd_not is_space (hd [] rest) -> exists fm', scan_fields valid fm (bls ++ rest) = Ok (fm', rest) /\
  forall n, fields_of fm' n = fields_of fm n ++ map cline_field (filter (fun l => eqb_bytes n (cline_name l)) ls).
Proof.
  induction 1 as [|l line ls bls Hl F IH]; intros V fm rest Hr; cbn [app scan_fields].
  - exists fm. split; [destruct rest as [|r rest]; cbn [scan_fields]; [reflexivity|rewrite no_field by exact Hr; reflexivity]|]. intros n. cbn. rewrite app_nil_r. reflexivity.
  - inversion V as [|? ? V1 V2]; subst. destruct (read_line valid l line Hl V1) as (rs & cs & E1 & E2 & E3). cbn [scan_fields]. rewrite E1, E3. cbn [bind]. rewrite E2.
    destruct (IH V2 (aset (cline_name l) (fields_of fm (cline_name l) ++ [cline_field l]) fm) rest Hr) as (fm' & G1 & G2). exists fm'. split; [exact G1|]. intros n. rewrite G2, fields_aset. cbn [filter].
    destruct (eqb_bytes n (cline_name l)) eqn:E; [|reflexivity]. apply eqb_bytes_true in E. subst n. cbn [map]. rewrite <- app_assoc. reflexivity.
Qed.
Lemma source_hd s lines : source_is s lines -> exists l ls, lines = l :: ls /\ hd_not is_space l /\ eqb_bytes l (B "---") = false.
Proof.
  intros [n sp1 ds i sp2 ls bls [Nn Fn] S1 N1 D S2 F]. eexists _, _. split; [reflexivity|]. split; [eapply hd_all; [exact word_not_space|assumption|assumption]|].
  destruct n as [|c n]; [congruence|]. cbn in Fn. apply andb_true_iff in Fn as [Fn _]. destruct (eqb_bytes ((c :: n) ++ sp1 ++ ds ++ sp2) (B "---")) eqn:E; [|reflexivity]. apply eqb_bytes_true in E. injection E as -> E. discriminate.
Qed.
Lemma sources_hd ss lines : sources_are ss lines -> forall rest, hd_not is_space (hd [] (lines ++ rest)).
Proof.
  intros H rest. destruct H as [|s lines ss rest' H1 H2]; [reflexivity|]. destruct (source_hd s lines H1) as (l & ls & -> & H & _). exact H.
Qed.
Lemma sources_cons ss lines : sources_are ss lines -> lines <> [].
Proof. intros H. destruct H as [|s lines ss rest' H1 H2]; [discriminate|]. destruct (source_hd s lines H1) as (l & ls & -> & _). discriminate. Qed.
Definition source_valid (s : csource) : Prop := Forall (cline_valid valid) (c_lines s).
Lemma scan_source_run s lines rest : source_is s lines -> source_valid s -> rest <> [] -> hd_not is_space (hd [] rest) -> exists l ls r, lines = l :: ls /\ scan_source valid l (ls ++ rest) = Ok (r, rest) /\ stands_for s r.
Proof.
  intros [n sp1 ds i sp2 ls bls W S1 N1 D S2 F] V Nr Hr. destruct (read_source_line n sp1 ds i sp2 W S1 N1 D S2) as (rs & cs & E1 & E2 & E3).
  destruct (scan_fields_run ls bls F V [] rest Hr) as (fm & G1 & G2). eexists _, _, (mkSource n (Z.to_nat i) fm). split; [reflexivity|]. unfold scan_source. rewrite E1, E3, (atoi_digits ds i D). cbn [bind].
  assert (K : exists a b, bls ++ rest = a :: b). { destruct (bls ++ rest) as [|a b] eqn:E; [apply app_eq_nil in E as [_ E]; destruct (Nr E)|eauto]. } destruct K as (a & b & K). rewrite K, <- K, G1. cbn [bind fst snd]. rewrite E2. split; [reflexivity|].
  split; [reflexivity|]. split; [reflexivity|]. intros m. cbn [so_fields c_lines]. rewrite G2. reflexivity.
Qed.
Definition holds_sources (found : bytes -> option csource) (srcs : list (bytes * source)) : Prop :=
  forall n, match found n with Some s => exists r, alookup n srcs = Some r /\ stands_for s r | None => alookup n srcs = None end.
Lemma read_sources_run ss lines : sources_are ss lines -> Forall source_valid ss -> forall fuel found srcs rest, (List.length lines <= fuel)%nat -> holds_sources found srcs ->
  exists srcs', read_sources valid fuel srcs (lines ++ rest) = Ok (srcs', rest) /\ holds_sources (fun n => last_source n ss (found n)) srcs'.
Proof.
  induction 1 as [|s lines ss more H1 H2 IH]; intros V fuel found srcs rest Hf Hs.
  - destruct fuel as [|fuel]; [cbn in Hf; lia|]. exists srcs. split; [reflexivity|]. exact Hs.
  - inversion V as [|? ? V1 V2]; subst. destruct fuel as [|fuel]; [rewrite app_length in Hf; destruct (source_hd s lines H1) as (l & ls & -> & _); cbn in Hf; lia|].
    assert (Nm : more ++ rest <> []). { pose proof (sources_cons _ _ H2) as N. intros Q. apply app_eq_nil in Q as [Q _]. exact (N Q). }
    destruct (source_hd s lines H1) as (l0 & ls0 & El & _ & Nl). destruct (scan_source_run s lines (more ++ rest) H1 V1 Nm (sources_hd _ _ H2 rest)) as (l & ls & r & -> & E & Sr). injection El as <- <-.
    rewrite <- app_assoc. cbn [app read_sources]. rewrite Nl, E. cbn [bind fst snd]. pose proof Sr as (Sn & _). rewrite Sn.
    destruct (IH V2 fuel (fun n => if eqb_bytes n (c_name s) then Some s else found n) (aset (c_name s) r srcs) rest) as (srcs' & G1 & G2).
    + rewrite app_length in Hf. cbn in Hf. lia.
    + intros n. cbv beta. destruct (eqb_bytes n (c_name s)) eqn:En; [apply eqb_bytes_true in En; subst n; exists r; split; [apply alookup_same|exact Sr]|]. rewrite alookup_other by exact En. apply Hs.
    + exists srcs'. split; [exact G1|exact G2].
Qed.
End Valid.
