(** Lemmas for Properties_Flags.v *)
From Coq Require Import Permutation.
From Verif Require Import Base M_Convert M_Ledger M_Flags S_Decimal S_Flags L_Dec L_Resolve L_Entries.
Local Open Scope Z_scope.

Lemma cut_equals_spec s n v : cut_equals s = (n, v) <-> ~ In "="%char n /\ s = n ++ match v with Some v => "="%char :: v | None => [] end.
Proof.
  revert n v. induction s as [|c s IH]; intros n v.
  - cbn [cut_equals]. split; [intros [= <- <-]; split; [intros []|reflexivity]|]. intros (_ & H). destruct n; [|discriminate]. destruct v; [discriminate|reflexivity].
  - cbn [cut_equals]. destruct (eqc c "="%char) eqn:E.
    + apply Ascii.eqb_eq in E as ->. split; [intros [= <- <-]; split; [intros []|reflexivity]|]. intros (H & K). destruct n as [|d n]; [destruct v; [injection K as ->; reflexivity|discriminate]|]. injection K as <- _. destruct H. left. reflexivity.
    + destruct (cut_equals s) as [n1 v1] eqn:E1. split.
      * intros [= <- <-]. destruct (proj1 (IH n1 v1) eq_refl) as (H & ->). split; [|reflexivity]. intros [->|I]; [discriminate E|auto].
      * intros (H & K). destruct n as [|d n]; [destruct v; [injection K as -> _; discriminate E|discriminate]|]. injection K as <- K.
        destruct (IH n v) as (_ & IH2). assert (X : (n1, v1) = (n, v)) by (apply IH2; split; [intros I; apply H; right; exact I|exact K]). injection X as -> ->. reflexivity.
Qed.
Lemma name_value_flag s n v : name_value s = Flag n v <-> name_ok n /\ s = n ++ match v with Some v => "="%char :: v | None => [] end.
Proof.
  unfold name_value, name_ok. destruct s as [|c s].
  - split; [discriminate|]. intros ((c & r & -> & _) & H). discriminate.
  - destruct (eqc c "-"%char) eqn:E1; [|destruct (eqc c "="%char) eqn:E2]; cbn [orb].
    + apply Ascii.eqb_eq in E1 as ->. split; [discriminate|]. intros ((d & r & -> & H & _) & K). injection K as <- _. congruence.
    + apply Ascii.eqb_eq in E2 as ->. split; [discriminate|]. intros ((d & r & -> & _ & H) & K). injection K as <- _. destruct H. left. reflexivity.
    + destruct (cut_equals s) as [n1 v1] eqn:E3. split.
      * intros [= <- <-]. apply cut_equals_spec in E3 as (H & ->). split; [|reflexivity]. exists c, n1. split; [reflexivity|]. split; [intros ->; discriminate E1|]. intros [->|I]; [discriminate E2|auto].
      * intros ((d & r & -> & _ & H) & K). injection K as <- K. assert (X : cut_equals s = (r, v)) by (apply cut_equals_spec; split; [intros I; apply H; right; exact I|exact K]). congruence.
Qed.
Lemma kind_flag s n v : kind_of s = Flag n v <-> exists d, In d dashes /\ name_ok n /\ s = d ++ n ++ match v with Some v => "="%char :: v | None => [] end.
Proof.
  unfold kind_of, dashes. split.
  - destruct s as [|d [|c r]]; try discriminate. destruct (eqc d "-"%char) eqn:Ed; [|discriminate]. apply Ascii.eqb_eq in Ed as ->. cbn [negb]. destruct (eqc c "-"%char) eqn:Ec.
    + apply Ascii.eqb_eq in Ec as ->. destruct r as [|x r]; [discriminate|]. intros H. apply name_value_flag in H as (H & K). exists (B "--"). split; [right; left; reflexivity|]. split; [exact H|]. rewrite K. reflexivity.
    + intros H. apply name_value_flag in H as (H & K). exists (B "-"). split; [left; reflexivity|]. split; [exact H|]. rewrite K. reflexivity.
  - intros (d & Hd & (c & r & -> & Hc & He) & ->). assert (Nc : eqc c "-"%char = false) by (apply Ascii.eqb_neq; exact Hc). destruct Hd as [<-|[<-|[]]]; cbn [app B list_ascii_of_string].
    + change (eqc "-" "-") with true. cbn [negb]. rewrite Nc. apply name_value_flag. split; [exists c, r; auto|reflexivity].
    + change (eqc "-" "-") with true. cbn [negb]. apply name_value_flag. split; [exists c, r; auto|reflexivity].
Qed.
Lemma kind_not s : kind_of s = NotFlag <-> s = B "-" \/ forall r, s <> "-"%char :: r.
Proof.
  unfold kind_of. destruct s as [|d [|c r]].
  - split; [right; discriminate|reflexivity].
  - split; [|reflexivity]. intros _. destruct (Ascii.eqb_spec d "-"%char) as [->|N]; [left; reflexivity|right; congruence].
  - destruct (eqc d "-"%char) eqn:Ed; cbn [negb].
    + apply Ascii.eqb_eq in Ed as ->. split; [|intros [H|H]; [discriminate|destruct (H (c :: r) eq_refl)]]. destruct (eqc c "-"%char); [destruct r; [discriminate|]|]; unfold name_value; (destruct (_ || _); [discriminate|]); destruct (cut_equals _); discriminate.
    + split; [intros _; right; intros x [= -> _]; discriminate Ed|reflexivity].
Qed.
Lemma kind_end s : kind_of s = EndOfFlags <-> s = B "--".
Proof.
  unfold kind_of. split; [|intros ->; reflexivity]. destruct s as [|d [|c r]]; try discriminate. destruct (eqc d "-"%char) eqn:Ed; [|discriminate]. apply Ascii.eqb_eq in Ed as ->. cbn [negb].
  destruct (eqc c "-"%char) eqn:Ec; [apply Ascii.eqb_eq in Ec as ->; destruct r; [reflexivity|]|]; unfold name_value; (destruct (_ || _); [discriminate|]); destruct (cut_equals _); discriminate.
Qed.
Definition option_of (f : flag_def) : option_def := mkOption (fl_name f) (fl_bool f) (fun v => fl_set f v = true).
Lemma find_flag fs n f : List.find (fun f => eqb_bytes (fl_name f) n) fs = Some f -> In f fs /\ fl_name f = n.
Proof. intros H. apply find_some in H as (I & E). apply eqb_bytes_eq in E. auto. Qed.
Lemma flag_found fs f : NoDup (map fl_name fs) -> In f fs -> List.find (fun g => eqb_bytes (fl_name g) (fl_name f)) fs = Some f.
Proof.
  induction fs as [|g fs IH]; [intros _ []|]. cbn [map List.find]. intros N I. inversion N as [|? ? Ng Nf]; subst. destruct I as [->|I]; [rewrite eqb_bytes_refl; reflexivity|].
  destruct (eqb_bytes (fl_name g) (fl_name f)) eqn:E; [|auto]. apply eqb_bytes_eq in E. destruct Ng. rewrite E. apply in_map, I.
Qed.
Lemma parse_sound fs : Forall (fun f => name_ok (fl_name f)) fs -> forall k line given args, (List.length line <= k)%nat -> parse_flags fs line = Ok (given, args) -> command_line (map option_of fs) given args line.
Proof.
  intros Fn. induction k as [|k IH]; intros line given args L H.
  - destruct line; [|cbn in L; lia]. injection H as <- <-. constructor. constructor.
  - destruct line as [|s r]; [injection H as <- <-; constructor; constructor|]. cbn [parse_flags] in H. cbn [List.length] in L. destruct (kind_of s) as [| | |n v] eqn:K.
    + injection H as <- <-. constructor. apply kind_not in K as [->|K]; [constructor|constructor; exact K].
    + injection H as <- <-. apply kind_end in K as ->. constructor. constructor.
    + discriminate.
    + apply kind_flag in K as (d & Hd & Hn & ->). destruct (List.find _ fs) as [f|] eqn:Ef; [|discriminate]. apply find_flag in Ef as (If & En). subst n. destruct (fl_bool f) eqn:Eb.
      * set (w := match v with Some v => v | None => B "true" end) in *. destruct (fl_set f w) eqn:Es; [|discriminate]. apply bind_ok in H as ([g a] & H1 & H2). injection H2 as <- <-.
        assert (C : command_line (map option_of fs) g a r) by (apply IH; [lia|exact H1]). change (command_line (map option_of fs) ((o_name (option_of f), w) :: g) a ([d ++ fl_name f ++ match v with Some v => "="%char :: v | None => [] end] ++ r)).
        apply cl_option; [apply in_map, If|exact Es| |exact C]. destruct v as [v|]; [apply (ot_joined (option_of f) v d Hd)|]. rewrite app_nil_r. apply (ot_switch (option_of f) w d Hd); [exact Eb|reflexivity].
      * destruct v as [v|].
        -- destruct (fl_set f v) eqn:Es; [|discriminate]. apply bind_ok in H as ([g a] & H1 & H2). injection H2 as <- <-. assert (C : command_line (map option_of fs) g a r) by (apply IH; [lia|exact H1]).
           change (command_line (map option_of fs) ((o_name (option_of f), v) :: g) a ([d ++ fl_name f ++ "="%char :: v] ++ r)). apply cl_option; [apply in_map, If|exact Es|apply (ot_joined (option_of f) v d Hd)|exact C].
        -- destruct r as [|v r]; [discriminate|]. destruct (fl_set f v) eqn:Es; [|discriminate]. apply bind_ok in H as ([g a] & H1 & H2). injection H2 as <- <-. cbn [List.length] in L. assert (C : command_line (map option_of fs) g a r) by (apply IH; [lia|exact H1]).
           rewrite app_nil_r. change (command_line (map option_of fs) ((o_name (option_of f), v) :: g) a ([d ++ fl_name f; v] ++ r)). apply cl_option; [apply in_map, If|exact Es|apply (ot_apart (option_of f) v d Hd Eb)|exact C].
Qed.
Lemma parse_complete fs : Forall (fun f => name_ok (fl_name f)) fs -> NoDup (map fl_name fs) -> forall given args line, command_line (map option_of fs) given args line -> parse_flags fs line = Ok (given, args).
Proof.
  intros Fn N given args line C. induction C as [line args E|o value text given args line Io Ht Ot C IH].
  - destruct E as [|r|a r H|r]; [reflexivity| | |reflexivity].
    + cbn [parse_flags]. assert (K : kind_of (B "-") = NotFlag) by reflexivity. rewrite K. reflexivity.
    + cbn [parse_flags]. rewrite (proj2 (kind_not a)) by (right; exact H). reflexivity.
  - apply in_map_iff in Io as (f & <- & If). rewrite Forall_forall in Fn. pose proof (Fn f If) as Hn. cbn [option_of o_takes] in Ht. inversion Ot as [d Hd|d Hd Sw|d Hd Sw Ev]; subst text; cbn [option_of o_name o_switch app] in *.
    + assert (K : kind_of (d ++ fl_name f ++ B "=" ++ value) = Flag (fl_name f) (Some value)) by (apply kind_flag; exists d; auto). cbn [parse_flags]. rewrite K, (flag_found fs f N If). destruct (fl_bool f); rewrite Ht, IH; reflexivity.
    + assert (K : kind_of (d ++ fl_name f) = Flag (fl_name f) None) by (apply kind_flag; exists d; rewrite app_nil_r; auto). cbn [parse_flags]. rewrite K, (flag_found fs f N If), Sw, Ht, IH. reflexivity.
    + assert (K : kind_of (d ++ fl_name f) = Flag (fl_name f) None) by (apply kind_flag; exists d; rewrite app_nil_r; auto). cbn [parse_flags]. subst value. rewrite K, (flag_found fs f N If), Sw, Ht, IH. reflexivity.
Qed.
Lemma parse_no_panic fs : forall k line, (List.length line <= k)%nat -> parse_flags fs line <> Panic.
Proof.
  induction k as [|k IH]; intros line L; [destruct line; [discriminate|cbn in L; lia]|]. destruct line as [|s r]; [discriminate|]. cbn [List.length] in L. cbn [parse_flags]. destruct (kind_of s) as [| | |n v]; try discriminate.
  destruct (List.find _ fs) as [f|]; [|discriminate]. assert (P := IH r ltac:(lia)). destruct (fl_bool f).
  - destruct (fl_set f _); [|discriminate]. destruct (parse_flags fs r); [discriminate|discriminate|congruence].
  - destruct v as [v|]; [destruct (fl_set f v); [|discriminate]; destruct (parse_flags fs r); [discriminate|discriminate|congruence]|]. destruct r as [|v r]; [discriminate|]. destruct (fl_set f v); [|discriminate].
    cbn [List.length] in L. assert (Q := IH r ltac:(lia)). destruct (parse_flags fs r); [discriminate|discriminate|congruence].
Qed.
(** ** values *)
Lemma setting_none ss name : setting name ss = None <-> ~ In name (map fst ss).
Proof.
  induction ss as [|[n v] ss IH]; [split; [intros _ []|reflexivity]|]. cbn [setting map fst In]. destruct (setting name ss) as [w|] eqn:E.
  - split; [discriminate|]. intros H. exfalso. assert (X : Some w = None) by (apply IH; tauto). discriminate X.
  - destruct (eqb_bytes n name) eqn:En; [apply eqb_bytes_eq in En as ->; split; [discriminate|intros H; destruct H; left; reflexivity]|]. split; [|reflexivity]. intros _ [->|I]; [rewrite eqb_bytes_refl in En; discriminate|]. apply IH; [reflexivity|exact I].
Qed.
Lemma setting_some ss name v : setting name ss = Some v <-> last_value ss name v.
Proof.
  unfold last_value. split.
  - revert v. induction ss as [|[n w] ss IH]; [discriminate|]. intros v. cbn [setting]. destruct (setting name ss) as [u|] eqn:E.
    + intros [= <-]. destruct (IH u eq_refl) as (a & b & -> & H). exists ((n, w) :: a), b. auto.
    + destruct (eqb_bytes n name) eqn:En; [|discriminate]. apply eqb_bytes_eq in En as ->. intros [= ->]. exists [], ss. split; [reflexivity|]. apply setting_none, E.
  - intros (a & b & -> & H). induction a as [|[n w] a IH]; cbn [app setting].
    + rewrite (proj2 (setting_none b name) H), eqb_bytes_refl. reflexivity.
    + rewrite IH. reflexivity.
Qed.
Lemma setting_value {A} ss name (read : bytes -> A -> Prop) (f : bytes -> A) default x :
  (forall text y, read text y -> f text = y) -> option_value ss name read default x -> match setting name ss with Some v => f v | None => default end = x.
Proof.
  intros R [(text & L & H)|(N & ->)]; [rewrite (proj2 (setting_some ss name text) L); apply R, H|rewrite (proj2 (setting_none ss name) N); reflexivity].
Qed.
Lemma setting_perm ss ss' name : Permutation ss ss' -> NoDup (map fst ss) -> setting name ss = setting name ss'.
Proof.
  intros P N. destruct (setting name ss) as [v|] eqn:E.
  - apply setting_some in E as (a & b & -> & _). symmetry. apply setting_some. assert (I : In (name, v) ss') by (eapply Permutation_in; [exact P|apply in_or_app; right; left; reflexivity]).
    apply in_split in I as (c & d & ->). exists c, d. split; [reflexivity|]. apply (Permutation_map fst), Permutation_NoDup in P; [|exact N]. rewrite map_app in P. cbn [map fst] in P. apply NoDup_remove_2 in P. intros I. apply P, in_or_app. right. exact I.
  - symmetry. apply setting_none. apply setting_none in E. intros I. apply E. eapply Permutation_in; [apply Permutation_sym, (Permutation_map fst), P|exact I].
Qed.
(** ** texts *)
Lemma digits_back s : forallb is_digit s = true -> exists ds, digits_ok ds /\ s = map digit_char ds.
Proof.
  induction s as [|c s IH]; [exists []; split; [constructor|reflexivity]|]. cbn [forallb]. intros H. apply andb_true_iff in H as (Hc & Hs). destruct (IH Hs) as (ds & O & ->). exists (digit_val c :: ds).
  split; [constructor; [apply is_digit_val, Hc|exact O]|]. cbn [map]. rewrite is_digit_char by exact Hc. reflexivity.
Qed.
Lemma parse_bool_text s x : parse_bool s = Some x <-> switch_text s x.
Proof.
  unfold parse_bool, switch_text. set (tl := [B "1"; B "t"; B "T"; B "true"; B "TRUE"; B "True"]). set (fl := [B "0"; B "f"; B "F"; B "false"; B "FALSE"; B "False"]).
  assert (M : forall l, existsb (eqb_bytes s) l = true <-> In s l). { intros l. rewrite existsb_exists. split; [intros (y & I & E); apply eqb_bytes_eq in E as ->; exact I|intros I; exists s; split; [exact I|apply eqb_bytes_refl]]. }
  assert (D : In s tl -> In s fl -> False). { intros I J. cbn in I, J. intuition (subst; discriminate). }
  destruct (existsb (eqb_bytes s) tl) eqn:E1; [|destruct (existsb (eqb_bytes s) fl) eqn:E2].
  - apply M in E1. destruct x; split; intros H; try exact E1; try reflexivity; [discriminate|destruct (D E1 H)].
  - apply M in E2. destruct x; split; intros H; try exact E2; try reflexivity; [discriminate|destruct (D H E2)].
  - destruct x; split; intros H; try discriminate; apply M in H; congruence.
Qed.
Lemma split_sign_text s : exists sign, In sign [[]; B "-"; B "+"] /\ s = sign ++ snd (split_sign s) /\ fst (split_sign s) = eqb_bytes sign (B "-").
Proof.
  unfold split_sign. destruct s as [|c r]; [exists []; repeat split; left; reflexivity|]. destruct (eqc c "-"%char) eqn:E1; [apply Ascii.eqb_eq in E1 as ->; exists (B "-"); cbn [In]; auto|].
  destruct (eqc c "+"%char) eqn:E2; [apply Ascii.eqb_eq in E2 as ->; exists (B "+"); cbn [In]; auto|]. exists []. cbn [In]. auto.
Qed.
Lemma sign_split sign ds : In sign [[]; B "-"; B "+"] -> digits_ok ds -> ds <> [] -> split_sign (sign ++ map digit_char ds) = (eqb_bytes sign (B "-"), map digit_char ds).
Proof.
  intros Hs O N. destruct Hs as [<-|[<-|[<-|[]]]]; try reflexivity. destruct ds as [|d ds]; [congruence|]. inversion O as [|? ? Hd _]; subst. cbn [app map split_sign]. pose proof (digit_char_is_digit d Hd) as D.
  assert (E1 : eqc (digit_char d) "-"%char = false) by (apply Ascii.eqb_neq; intros E; rewrite E in D; discriminate D). assert (E2 : eqc (digit_char d) "+"%char = false) by (apply Ascii.eqb_neq; intros E; rewrite E in D; discriminate D). rewrite E1, E2. reflexivity.
Qed.
Lemma parse_number s z : parse_int_flag s = Some z <-> number_text s z.
Proof.
  unfold parse_int_flag, number_text. split.
  - intros H. destruct (split_sign_text s) as (sign & Hs & Es & En).
    assert (P : parse_int64 s = Ok z). { destruct (snd (split_sign s)) as [|c [|c2 r]]; [|destruct (parse_int64 s); congruence|destruct (eqc c "0"%char); [discriminate|destruct (parse_int64 s); congruence]]. destruct (parse_int64 s); congruence. }
    unfold parse_int64 in P. rewrite En in P. destruct (forallb is_digit (snd (split_sign s))) eqn:D; [|discriminate P]. cbn [negb orb] in P. destruct (Nat.eqb_spec (List.length (snd (split_sign s))) 0) as [|L]; [discriminate P|].
    destruct (digits_back _ D) as (ds & O & Ed). rewrite Ed in *. exists sign, ds. rewrite digits_val_num in P by exact O. cbv zeta in P. destruct (_ && _) eqn:F in P; [|discriminate P]. injection P as P.
    split; [exact Hs|]. split; [exact O|]. split.
    { destruct ds as [|d ds]; [destruct L; reflexivity|]. inversion O as [|? ? Hd _]; subst. destruct ds as [|d2 ds]; [destruct (Z.eq_dec d 0) as [->|N]; [left; reflexivity|right; eauto]|]. right. exists d, (d2 :: ds). split; [reflexivity|]. intros ->. cbn [map] in H. change (eqc (digit_char 0) "0") with true in H. discriminate H. }
    split; [exact Es|]. split; [symmetry; exact P|]. rewrite <- P. exact F.
  - intros (sign & ds & Hs & O & Hd & -> & Hz & F). assert (N : ds <> []) by (destruct Hd as [->|(d & r & -> & _)]; discriminate). pose proof (sign_split sign ds Hs O N) as Sp.
    assert (P : parse_int64 (sign ++ map digit_char ds) = Ok z).
    { unfold parse_int64. rewrite Sp. cbn [fst snd]. rewrite map_digits_is_digit by exact O. rewrite digits_val_num by exact O. rewrite <- Hz. destruct (Nat.eqb_spec (List.length (map digit_char ds)) 0) as [L|L]; [destruct ds; [congruence|discriminate L]|]. cbn [negb orb]. unfold fits64 in F. unfold int64_min, int64_max. rewrite F. reflexivity. }
    rewrite Sp, P. cbn [snd]. destruct Hd as [->|(d & r & -> & Nd)]; [reflexivity|]. cbn [map]. destruct r as [|d2 r]; [reflexivity|]. cbn [map]. inversion O as [|? ? Hr _]; subst.
    assert (E : eqc (digit_char d) "0"%char = false). { apply Ascii.eqb_neq. intros E. assert (V : digit_val (digit_char d) = d) by (apply digit_char_val, Hr). rewrite E in V. change (digit_val "0"%char) with 0 in V. lia. }
    rewrite E. reflexivity.
Qed.
