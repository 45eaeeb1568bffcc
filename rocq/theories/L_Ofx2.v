(** Lemmas: from records to transactions. *)
From Coq Require Import Sorted Permutation.
From Verif Require Import Base M_Amount M_Date M_Regex M_Parser M_Names M_Ledger M_Rules M_Commands M_Ofx S_Amount S_Rules S_Books S_Ofx L_Dec L_Sort L_Amount L_Registers L_Resolve L_Resolve2 L_Load L_Move L_Rules Properties_Ledger Properties_Rules L_Ofx.

Lemma frac_down num den c a : 0 < den -> new_amount_frac num den c = Ok a -> amount_down num den c a.
Proof.
  intros Hd H. unfold new_amount_frac in H.
  assert (E : (if (0 <? c_dec c)%nat then do p <- big_pow10 (c_dec c); Ok (num * p) else Ok num) = Ok (num * 10 ^ Z.of_nat (c_dec c)) \/
     exists b, (if (0 <? c_dec c)%nat then do p <- big_pow10 (c_dec c); Ok (num * p) else Ok num) = b /\ match b with Ok _ => False | _ => True end).
  { destruct (Nat.ltb_spec 0 (c_dec c)).
    - destruct (big_pow10_cases (c_dec c)) as [[_ ->]|[_ ->]]; cbn [bind]; [left; reflexivity|right; exists Panic; auto].
    - left. replace (c_dec c) with O by lia. cbn. f_equal. lia. }
  destruct E as [E|(b & E & F)]; rewrite E in H; [|destruct b; [destruct F|discriminate|discriminate]]. cbn [bind] in H. destruct (Z.eqb_spec den 0); [lia|]. injection H as <-.
  split; [reflexivity|]. cbn [a_int]. unfold euclid_div. destruct (Z.ltb_spec den 0); [lia|]. generalize (num * 10 ^ Z.of_nat (c_dec c)). intros b.
  pose proof (Z.div_mod b den ltac:(lia)). pose proof (Z.mod_pos_bound b den Hd). nia.
Qed.
Lemma frac_total num den c : 0 < den -> (c_dec c <= 50)%nat -> exists a, new_amount_frac num den c = Ok a.
Proof.
  intros Hd Hc. unfold new_amount_frac. rewrite big_pow10_ok by exact Hc. destruct (0 <? c_dec c)%nat; cbn [bind]; destruct (Z.eqb_spec den 0); try lia; eexists; reflexivity.
Qed.
Lemma rule_for_sound matches sets es rs : expands sets es rs -> forall fuel payee o, rule_for matches fuel sets payee es = Some o -> o = List.find (fun r => matches (r_pattern r) payee) rs.
Proof.
  assert (Fa : forall (f : rule -> bool) l1 l2, List.find f (l1 ++ l2) = match List.find f l1 with Some r => Some r | None => List.find f l2 end).
  { intros f l1 l2. induction l1 as [|x l1 IH]; [reflexivity|]. cbn. destruct (f x); auto. }
  induction 1 as [|r es rs H IH|n s es rs1 rs2 E H1 IH1 H2 IH2]; intros fuel payee o Ho.
  - destruct fuel; injection Ho as <-; reflexivity.
  - cbn [List.find]. destruct fuel; cbn [rule_for] in Ho; destruct (matches (r_pattern r) payee); [injection Ho as <-; reflexivity|eapply (IH 0%nat); exact Ho|injection Ho as <-; reflexivity|eapply (IH (S fuel)); exact Ho].
  - destruct fuel as [|f]; [discriminate|]. cbn [rule_for] in Ho. rewrite (nth_error_nth _ _ _ E) in Ho. rewrite Fa. destruct (rule_for matches f sets payee (s_rules s)) as [o1|] eqn:E1; [|discriminate].
    apply IH1 in E1. rewrite <- E1. destruct o1 as [r|]; [injection Ho as <-; reflexivity|]. eapply (IH2 (S f)). exact Ho.
Qed.

Definition grows (L L' : ledger) : Prop := (nxt L <= nxt L')%nat /\ ledger_ok L' /\ forall p, (p < nxt L)%nat -> heap L' p = heap L p.
Lemma grows_refl L : ledger_ok L -> grows L L. Proof. intros H. split; [lia|]. split; [exact H|reflexivity]. Qed.
Lemma grows_trans L1 L2 L3 : grows L1 L2 -> grows L2 L3 -> grows L1 L3.
Proof. intros (A1 & A2 & A3) (B1 & B2 & B3). split; [lia|]. split; [exact B2|]. intros p Hp. rewrite B3 by lia. apply A3, Hp. Qed.
(** transaction with its postings between two limits *)
Definition between_n (lo hi : nat) (o : option rtx) : Prop := match o with Some x => NoDup (x_posts x) /\ forall p, In p (x_posts x) -> (lo <= p < hi)%nat | None => True end.
Lemma becomes_grows matches comm L L' e o : becomes matches comm L e o -> between_n 0 (nxt L) o -> grows L L' -> becomes matches comm L' e o.
Proof.
  intros (found & F & H) Bt (_ & _ & G). exists found. split; [exact F|].
  assert (P : forall x time a1 a2 am bal, o = Some x -> posted_as L x time a1 a2 am bal -> posted_as L' x time a1 a2 am bal).
  { intros x time a1 a2 am bal -> (p & q & N & E & Hp & Hq). exists p, q. destruct Bt as [_ Bt]. split; [exact N|]. split; [exact E|]. rewrite E in Bt.
    rewrite !G by (apply Bt; destruct (a_int am <? 0); cbn; auto). auto. }
  destruct found as [[[a|] pt ns]|]; [|exact H|]; destruct H as (x & am & bal & E & H1 & H2 & H3 & H4 & H5 & H6 & H7); exists x, am, bal; repeat (split; [assumption|]); eapply P; eassumption.
Qed.
Section Import.
Variables (matches : bytes -> bytes -> bool) (fuel : nat) (comm : bytes -> commodity) (by_ofx_id : bytes -> option bytes).
Lemma new_transaction_spec L sets ars rs time payee num den balance L' o : ledger_ok L -> expands sets (ar_rules ars) rs -> 0 < den ->
  (forall n d, balance = Some (n, d) -> 0 < d) ->
  new_transaction matches fuel comm L sets ars time payee num den balance = Ok (L', o) ->
  grows L L' /\ between_n (nxt L) (nxt L') o /\ becomes matches comm L' (mkEntry (ar_account ars) rs time payee num den balance) o.
Proof.
  intros Hok X Hd Hb H. unfold new_transaction in H. destruct (rule_for matches fuel sets payee (ar_rules ars)) as [found|] eqn:Ef; [|discriminate]. apply (rule_for_sound _ _ _ _ X) in Ef.
  assert (Fm : first_match matches payee rs found) by (rewrite Ef; apply find_first). clear Ef X.
  assert (G : forall to notes L' o, (do amt <- new_amount_frac num den (comm (ar_account ars));
          do bal <- match balance with None => Ok None | Some (n, d) => do b <- new_amount_frac n d (comm (ar_account ars)); Ok (Some b) end;
          let '(L, x) := post L (mkTx time [] payee notes [] O) (ar_account ars) to amt bal in Ok (L, Some x)) = Ok (L', o) ->
     grows L L' /\ between_n (nxt L) (nxt L') o /\ exists x am bal, o = Some x /\ x_posted x = time /\ x_code x = [] /\ x_desc x = payee /\ x_notes x = notes /\
      amount_down num den (comm (ar_account ars)) am /\ match balance, bal with None, None => True | Some (n, d), Some b => amount_down n d (comm (ar_account ars)) b | _, _ => False end /\
      posted_as L' x time (ar_account ars) to am bal).
  { clear H Fm. intros to notes L1 o1 H. destruct (new_amount_frac num den (comm (ar_account ars))) as [amt| |] eqn:Ea; try discriminate. cbn [bind] in H.
    destruct (match balance with None => Ok None | Some (n, d) => do b <- new_amount_frac n d (comm (ar_account ars)); Ok (Some b) end) as [bal| |] eqn:Eb; try discriminate. cbn [bind] in H.
    unfold post in H. pose proof (post_spec L (mkTx time [] payee notes [] O) (ar_account ars) amt bal to (negated amt) None Hok) as P.
    destruct (post_conversion L (mkTx time [] payee notes [] 0) (ar_account ars) amt bal to (negated amt) None) as [L2 x]. injection H as <- <-. cbn [fst snd x_posted x_posts x_code x_desc x_notes app] in P.
    destruct P as (P1 & P2 & P3 & P4 & P5 & P6 & P7 & P8 & P9 & P10 & _).
    split; [split; [lia|split; [exact P1|exact P10]]|]. split.
    { cbn [between_n]. rewrite P3, P2. split; [destruct (a_int amt <? 0); repeat constructor; cbn; lia|]. intros p I. destruct (a_int amt <? 0); destruct I as [<-|[<-|[]]]; lia. }
    exists x, amt, bal. repeat (split; [congruence|]). split; [apply frac_down; assumption|]. split.
    - destruct balance as [[n d]|]; [|injection Eb as <-; exact I]. destruct (new_amount_frac n d (comm (ar_account ars))) as [b| |] eqn:Eb2; try discriminate. injection Eb as <-. apply frac_down; [eapply Hb; reflexivity|exact Eb2].
    - exists (nxt L), (S (nxt L)). split; [lia|]. split; [exact P3|]. split; [exact P8|exact P9]. }
  destruct found as [[[a|] pt ns]|].
  - destruct (G a ns L' o H) as (G1 & G2 & G3). split; [exact G1|]. split; [exact G2|]. eexists. split; [exact Fm|]. exact G3.
  - injection H as <- <-. split; [apply grows_refl, Hok|]. split; [exact I|]. eexists. split; [exact Fm|]. reflexivity.
  - destruct (G unbalanced [] L' o H) as (G1 & G2 & G3). split; [exact G1|]. split; [exact G2|]. eexists. split; [exact Fm|]. exact G3.
Qed.
Lemma new_transaction_total L sets ars rs time payee num den balance : expands sets (ar_rules ars) rs -> 0 < den -> (forall n d, balance = Some (n, d) -> 0 < d) -> (c_dec (comm (ar_account ars)) <= 50)%nat ->
  rule_for matches fuel sets payee (ar_rules ars) <> None -> exists L' o, new_transaction matches fuel comm L sets ars time payee num den balance = Ok (L', o).
Proof.
  intros X Hd Hb Hc Hr. unfold new_transaction. destruct (rule_for matches fuel sets payee (ar_rules ars)) as [found|]; [|congruence].
  destruct (frac_total num den _ Hd Hc) as [am ->]. cbn [bind].
  assert (Eb : exists b, (match balance with None => Ok None | Some (n, d) => do b <- new_amount_frac n d (comm (ar_account ars)); Ok (Some b) end) = Ok b).
  { destruct balance as [[n d]|]; [|eexists; reflexivity]. destruct (frac_total n d _ (Hb _ _ eq_refl) Hc) as [b ->]. eexists. reflexivity. }
  destruct Eb as [b ->]. cbn [bind]. destruct found as [[[a|] pt ns]|]; try (destruct (post _ _ _ _ _ _)); eexists; eexists; reflexivity.
Qed.
Definition all_become (L' : ledger) (lo hi : nat) (es : list entry) (xs : list rtx) : Prop :=
  exists os, Forall2 (becomes matches comm L') es os /\ xs = somes os /\ NoDup (flat_map x_posts xs) /\ forall p, In p (flat_map x_posts xs) -> (lo <= p < hi)%nat.
Lemma all_become_app L1 L2 lo mid hi es1 es2 xs1 xs2 : grows L1 L2 -> (lo <= mid)%nat -> mid = nxt L1 -> (mid <= hi)%nat -> all_become L1 lo mid es1 xs1 -> all_become L2 mid hi es2 xs2 -> all_become L2 lo hi (es1 ++ es2) (xs1 ++ xs2).
Proof.
  intros G Hl Em Hh (o1 & A1 & -> & A3 & A4) (o2 & B1 & -> & B3 & B4). exists (o1 ++ o2). split; [|split; [|split]].
  - apply Forall2_app; [|exact B1]. assert (Q : forall x, In (Some x) o1 -> between_n 0 (nxt L1) (Some x)).
    { intros x I. apply in_split in I as (l1 & l2 & ->). unfold somes in A3, A4. rewrite flat_map_app in A3, A4. cbn [flat_map app] in A3, A4. rewrite flat_map_app in A3, A4. cbn [flat_map] in A3, A4. split.
      - apply NoDup_app_inv in A3 as (_ & A3 & _). apply NoDup_app_inv in A3 as (A3 & _). exact A3.
      - intros p I. subst mid. split; [lia|]. apply (A4 p). apply in_or_app. right. apply in_or_app. left. exact I. }
    clear -A1 G Q. induction A1 as [|e o es os H F IH]; constructor.
    + eapply becomes_grows; [exact H| |exact G]. destruct o as [x|]; [apply Q; left; reflexivity|exact I].
    + apply IH. intros x I. apply Q. right. exact I.
  - unfold somes. rewrite flat_map_app. reflexivity.
  - rewrite flat_map_app. apply NoDup_app_intro; [exact A3|exact B3|]. intros p I J. apply A4 in I. apply B4 in J. lia.
  - intros p I. rewrite flat_map_app in I. apply in_app_iff in I as [I|I]; [apply A4 in I|apply B4 in I]; lia.
Qed.
Lemma all_become_nil L lo hi : all_become L lo hi [] [].
Proof. exists []. repeat split; try constructor; destruct H. Qed.

Definition recs_entries (ars : arules) (rs : list rule) (payee : orec -> bytes) (balance : option (Z * Z)) : list orec -> list entry :=
  fix go l := match l with
  | [] => []
  | r :: rest => mkEntry (ar_account ars) rs (o_time r) (payee r) (o_num r) (o_den r) (match rest with [] => balance | _ => None end) :: go rest
  end.
Lemma read_recs_spec sets ars rs payee balance l : expands sets (ar_rules ars) rs -> (forall r, In r l -> 0 < o_den r) -> (forall n d, balance = Some (n, d) -> 0 < d) ->
  forall L L' xs, ledger_ok L -> read_recs matches fuel comm L sets ars payee balance l = Ok (L', xs) ->
  grows L L' /\ all_become L' (nxt L) (nxt L') (recs_entries ars rs payee balance l) xs.
Proof.
  intros X. induction l as [|r l IH]; intros Hr Hb L L' xs Hok H; cbn [read_recs recs_entries] in *.
  - injection H as <- <-. split; [apply grows_refl, Hok|apply all_become_nil].
  - destruct (new_transaction matches fuel comm L sets ars (o_time r) (payee r) (o_num r) (o_den r) (match l with [] => balance | _ => None end)) as [[L1 o]| |] eqn:E; try discriminate. cbn [bind fst snd] in H.
    destruct (read_recs matches fuel comm L1 sets ars payee balance l) as [[L2 ys]| |] eqn:E2; try discriminate. cbn [bind fst snd] in H. injection H as <- <-.
    assert (Hb' : forall n d, (match l with [] => balance | _ => None end) = Some (n, d) -> 0 < d) by (destruct l; [exact Hb|intros n d En; discriminate En]).
    destruct (new_transaction_spec _ _ _ rs _ _ _ _ _ _ _ Hok X (Hr r (or_introl eq_refl)) Hb' E) as (A1 & A2 & A3).
    destruct (IH ltac:(intros; apply Hr; right; assumption) Hb L1 L2 ys (proj1 (proj2 A1)) E2) as (B1 & B2). split; [eapply grows_trans; eassumption|].
    replace (match o with Some x => x :: ys | None => ys end) with (somes [o] ++ ys) by (destruct o; reflexivity). 
    refine (all_become_app L1 L2 _ _ _ [_] _ _ _ B1 (proj1 A1) eq_refl (proj1 B1) _ B2).
    exists [o]. split; [constructor; [exact A3|constructor]|]. split; [reflexivity|]. destruct o as [x|]; cbn [somes flat_map app between_n] in *; [|split; [constructor|intros p []]]. rewrite app_nil_r. exact A2.
Qed.
Lemma read_statements_spec ri bank sts ess : Forall2 (entries_of by_ofx_id ri bank) sts ess -> (forall st, In st sts -> 0 < snd (st_balance st) /\ forall r, In r (st_recs st) -> 0 < o_den r) ->
  forall L L' xs, ledger_ok L -> read_statements matches fuel comm by_ofx_id bank L (Some ri) sts = Ok (L', xs) ->
  grows L L' /\ all_become L' (nxt L) (nxt L') (concat ess) xs.
Proof.
  induction 1 as [|st es sts ess He F IH]; intros Hd L L' xs Hok H; cbn [read_statements concat] in *.
  - injection H as <- <-. split; [apply grows_refl, Hok|apply all_become_nil].
  - destruct He as [st acct rs (ars & Ea & <- & X)]. rewrite Ea in H. cbn [bind] in H.
    destruct (read_recs matches fuel comm L (ri_sets ri) ars (fun r => if bank then trim_ws (o_name r ++ o_memo r) else o_name r) (if bank then Some (st_balance st) else None) (st_recs st)) as [[L1 ys]| |] eqn:E; try discriminate. cbn [bind fst snd] in H.
    destruct (read_statements matches fuel comm by_ofx_id bank L1 (Some ri) sts) as [[L2 zs]| |] eqn:E2; try discriminate. cbn [bind fst snd] in H. injection H as <- <-.
    destruct (Hd st (or_introl eq_refl)) as [D1 D2].
    assert (Db : forall n d, (if bank then Some (st_balance st) else None) = Some (n, d) -> 0 < d) by (intros n d En; destruct bank; [|discriminate En]; assert (Q : st_balance st = (n, d)) by congruence; rewrite Q in D1; exact D1).
    destruct (read_recs_spec (ri_sets ri) ars rs _ _ (st_recs st) X D2 Db L L1 ys Hok E) as [A1 A2].
    destruct (IH ltac:(intros; apply Hd; right; assumption) L1 L2 zs (proj1 (proj2 A1)) E2) as [B1 B2]. split; [eapply grows_trans; eassumption|].
    refine (all_become_app L1 L2 _ _ _ _ _ _ _ B1 (proj1 A1) eq_refl (proj1 B1) _ B2). exact A2.
Qed.
Lemma read_ofx_spec ri f es : entries_of_file by_ofx_id ri f es -> dens_ok f -> forall L L' xs, ledger_ok L -> read_ofx matches fuel comm by_ofx_id L (Some ri) f = Ok (L', xs) ->
  grows L L' /\ all_become L' (nxt L) (nxt L') es xs.
Proof.
  intros (b & c & Fb & Fc & ->) Hd L L' xs Hok H. unfold read_ofx in H.
  destruct (read_statements matches fuel comm by_ofx_id true L (Some ri) (of_bank f)) as [[L1 ys]| |] eqn:E; try discriminate. cbn [bind fst snd] in H.
  destruct (read_statements matches fuel comm by_ofx_id false L1 (Some ri) (of_card f)) as [[L2 zs]| |] eqn:E2; try discriminate. cbn [bind fst snd] in H. injection H as <- <-.
  destruct (read_statements_spec ri true _ _ Fb ltac:(intros st I; apply Hd, in_or_app; left; exact I) L L1 ys Hok E) as [A1 A2].
  destruct (read_statements_spec ri false _ _ Fc ltac:(intros st I; apply Hd, in_or_app; right; exact I) L1 L2 zs (proj1 (proj2 A1)) E2) as [B1 B2].
  split; [eapply grows_trans; eassumption|]. refine (all_become_app L1 L2 _ _ _ _ _ _ _ B1 (proj1 A1) eq_refl (proj1 B1) A2 B2).
Qed.
Lemma read_files_spec ri fs ess : Forall2 (entries_of_file by_ofx_id ri) fs ess -> Forall dens_ok fs -> forall L L' xs, ledger_ok L -> read_files matches fuel comm by_ofx_id L (Some ri) fs = Ok (L', xs) ->
  grows L L' /\ all_become L' (nxt L) (nxt L') (concat ess) xs.
Proof.
  induction 1 as [|f es fs ess He F IH]; intros Hd L L' xs Hok H; cbn [read_files concat] in *.
  - injection H as <- <-. split; [apply grows_refl, Hok|apply all_become_nil].
  - inversion Hd; subst. destruct (read_ofx matches fuel comm by_ofx_id L (Some ri) f) as [[L1 ys]| |] eqn:E; try discriminate. cbn [bind fst snd] in H.
    destruct (read_files matches fuel comm by_ofx_id L1 (Some ri) fs) as [[L2 zs]| |] eqn:E2; try discriminate. cbn [bind fst snd] in H. injection H as <- <-.
    destruct (read_ofx_spec ri f es He ltac:(assumption) L L1 ys Hok E) as [A1 A2]. destruct (IH ltac:(assumption) L1 L2 zs (proj1 (proj2 A1)) E2) as [B1 B2].
    split; [eapply grows_trans; eassumption|]. refine (all_become_app L1 L2 _ _ _ _ _ _ _ B1 (proj1 A1) eq_refl (proj1 B1) A2 B2).
Qed.
End Import.
