(** Files of rows. *)
From Coq Require Import Sorted Permutation.
From Verif Require Import Base M_Amount M_Date M_Names M_Ledger M_Rules M_Commands S_Amount S_Date S_Rules S_Books S_Commands S_Ofx L_Dec L_Rules L_Resolve L_Resolve2 L_Load L_Move L_Words L_Ofx2 M_Csv S_Csv L_Csv L_Csv2 L_Csv3.

Section Files.
Variable matches : bytes -> bytes -> bool.
Variable rexm : bytes -> bytes -> option (list bytes).
Variable fuel : nat.
Variable comm : bytes -> commodity.
Variable children : bytes -> list bytes.
Variable by_ofx_id : bytes -> option bytes.
Variable by_id by_symbol : bytes -> option commodity.
Variable ri : rindex.
Hypothesis Hrules : forall id ars, account_rules_for by_ofx_id ri id = Ok ars -> exists rs, expands (ri_sets ri) (ar_rules ars) rs.
Hypothesis Hlevels : forall a, levels children fuel a.
Local Notation becomes_row := (becomes_row matches rexm comm children by_ofx_id by_id by_symbol).

Lemma row_grows fm L L' row o : becomes_row fm ri L row o -> between_n 0 (nxt L) o -> grows L L' -> becomes_row fm ri L' row o.
Proof.
  intros (acct & descr & ws & ars & rs & found & H1 & H2 & H3 & H4 & H5 & H6 & H7) Bt (_ & _ & G). exists acct, descr, ws, ars, rs, found. repeat (split; [assumption|]).
  assert (P : forall x a1 fa a2 ta, o = Some x -> two_postings L x a1 fa a2 ta -> two_postings L' x a1 fa a2 ta).
  { intros x a1 fa a2 ta -> (p & q & N & E & Hp & Hq). exists p, q. destruct Bt as [_ Bt]. split; [exact N|]. split; [exact E|]. rewrite E in Bt.
    rewrite !G by (apply Bt; destruct (a_int fa <? 0); cbn; auto). auto. }
  assert (K : forall (C : Prop), (o = None -> C) -> C -> C) by tauto.
  destruct found as [[[a|] pt ns]|]; [|exact H7|];
    destruct H7 as (x & note & nws & amt & currency & c & amount & to & symbol & E & A1 & A2 & A3 & A4 & A5 & A6 & A7 & A8 & A9 & A10 & A11 & A12 & A13 & A14 & A15 & A16);
    exists x, note, nws, amt, currency, c, amount, to, symbol; repeat (split; [assumption|]);
    (destruct A16 as [[B1 (from & B2 & B3)]|(B1 & sc & q & quantity & given & from & C1 & C2 & C3 & C4 & C5 & C6 & C7 & C8 & C9)];
     [left; split; [exact B1|]; exists from; split; [exact B2|]; eapply P; eassumption
     |right; split; [exact B1|]; exists sc, q, quantity, given, from; repeat (split; [assumption|]); eapply P; eassumption]).
Qed.
Definition rows_become (fm : fmap) (L' : ledger) (lo hi : nat) (es : list (list bytes)) (xs : list rtx) : Prop :=
  exists os, Forall2 (becomes_row fm ri L') es os /\ xs = somes os /\ NoDup (flat_map x_posts xs) /\ forall p, In p (flat_map x_posts xs) -> (lo <= p < hi)%nat.
Lemma rows_become_app fm L1 L2 lo mid hi es1 es2 xs1 xs2 : grows L1 L2 -> (lo <= mid)%nat -> mid = nxt L1 -> (mid <= hi)%nat -> rows_become fm L1 lo mid es1 xs1 -> rows_become fm L2 mid hi es2 xs2 -> rows_become fm L2 lo hi (es1 ++ es2) (xs1 ++ xs2).
Proof.
  intros G Hl Em Hh (o1 & A1 & -> & A3 & A4) (o2 & B1 & -> & B3 & B4). exists (o1 ++ o2). split; [|split; [|split]].
  - apply Forall2_app; [|exact B1]. assert (Q : forall x, In (Some x) o1 -> between_n 0 (nxt L1) (Some x)).
    { intros x I. apply in_split in I as (l1 & l2 & ->). unfold somes in A3, A4. rewrite flat_map_app in A3, A4. cbn [flat_map app] in A3, A4. rewrite flat_map_app in A3, A4. cbn [flat_map] in A3, A4. split.
      - apply NoDup_app_inv in A3 as (_ & A3 & _). apply NoDup_app_inv in A3 as (A3 & _). exact A3.
      - intros p I. subst mid. split; [lia|]. apply (A4 p). apply in_or_app. right. apply in_or_app. left. exact I. }
    clear -A1 G Q. induction A1 as [|e o es os H F IH]; constructor.
    + eapply row_grows; [exact H| |exact G]. destruct o as [x|]; [apply Q; left; reflexivity|exact I].
    + apply IH. intros x I. apply Q. right. exact I.
  - unfold somes. rewrite flat_map_app. reflexivity.
  - rewrite flat_map_app. apply NoDup_app_intro; [exact A3|exact B3|]. intros p I J. apply A4 in I. apply B4 in J. lia.
  - intros p I. rewrite flat_map_app in I. apply in_app_iff in I as [I|I]; [apply A4 in I|apply B4 in I]; lia.
Qed.
Lemma rows_become_nil fm L lo hi : rows_become fm L lo hi [] [].
Proof. exists []. repeat split; try constructor; destruct H. Qed.
Lemma read_rows_spec fm rows : forall per L L' xs, ledger_ok L -> read_rows matches rexm fuel comm children by_ofx_id by_id by_symbol L per rows fm (Some ri) = Ok (L', xs) ->
  grows L L' /\ rows_become fm L' (nxt L) (nxt L') rows xs /\ exists n, (per <> 0%nat -> n = per) /\ ((forall r, In r rows -> r <> []) -> Forall (fun r => List.length r = n) rows).
Proof.
  induction rows as [|r rows IH]; intros per L L' xs Hok H; cbn [read_rows] in H.
  - injection H as <- <-. split; [apply grows_refl, Hok|]. split; [apply rows_become_nil|]. exists per. split; [reflexivity|]. intros _. constructor.
  - destruct ((per =? 0)%nat || (per =? List.length r)%nat) eqn:Ep; [|discriminate].
    destruct (transaction_from matches rexm fuel comm children by_ofx_id by_id by_symbol L r fm (Some ri)) as [[L1 o]| |] eqn:E; try discriminate. cbn [bind fst snd] in H.
    destruct (read_rows matches rexm fuel comm children by_ofx_id by_id by_symbol L1 (List.length r) rows fm (Some ri)) as [[L2 ys]| |] eqn:E2; try discriminate. cbn [bind fst snd] in H. injection H as <- <-.
    destruct (row_spec _ _ _ _ _ _ _ _ _ _ Hrules Hlevels _ _ _ _ Hok E) as (A1 & A2 & A3).
    destruct (IH _ L1 L2 ys (proj1 (proj2 A1)) E2) as (B1 & B2 & n & B3 & B4). split; [eapply grows_trans; eassumption|]. split.
    + replace (match o with Some x => x :: ys | None => ys end) with (somes [o] ++ ys) by (destruct o; reflexivity). 
      refine (rows_become_app fm L1 L2 _ _ _ [_] _ _ _ B1 (proj1 A1) eq_refl (proj1 B1) _ B2).
      exists [o]. split; [constructor; [exact A3|constructor]|]. split; [reflexivity|]. destruct o as [x|]; cbn [somes flat_map app between_n] in *; [|split; [constructor|intros p []]]. rewrite app_nil_r. exact A2.
    + exists (List.length r). apply orb_true_iff in Ep. split; [intros N; destruct Ep as [Ep|Ep]; [apply Nat.eqb_eq in Ep; congruence|apply Nat.eqb_eq in Ep; congruence]|].
      intros Hne. constructor; [reflexivity|]. assert (Nr : List.length r <> 0%nat) by (destruct r; [exfalso; apply (Hne []); [left|]; reflexivity|discriminate]). rewrite <- (B3 Nr). apply B4. intros; apply Hne; right; assumption.
Qed.
Lemma skip_spec n : forall per rows per' data, skip_rows n per rows = Ok (per', data) -> exists headers, rows = headers ++ data /\ List.length headers = n /\ (n = O -> per' = per) /\ forall h hs, headers = hs ++ [h] -> per' = List.length h.
Proof.
  induction n as [|n IH]; intros per rows per' data H; cbn [skip_rows] in H.
  - injection H as <- <-. exists []. repeat split. intros h hs E. destruct hs; discriminate.
  - destruct rows as [|r rows]; [discriminate|]. destruct (IH _ _ _ _ H) as (hs & -> & El & E0 & Eh). exists (r :: hs). split; [reflexivity|]. split; [cbn; congruence|]. split; [discriminate|].
    intros h hs' E. destruct hs' as [|a hs']; cbn in E; injection E as -> E.
    + subst hs. apply E0. cbn in El. congruence.
    + eapply Eh. exact E.
Qed.
Lemma read_csv_spec src rows L L' xs : ledger_ok L -> (forall r, In r rows -> r <> []) -> read_csv matches rexm fuel comm children by_ofx_id by_id by_symbol L rows src (Some ri) = Ok (L', xs) ->
  exists data, data_rows (so_skip src) rows data /\ grows L L' /\ rows_become (so_fields src) L' (nxt L) (nxt L') data xs.
Proof.
  intros Hok Hne H. unfold read_csv in H. destruct (skip_rows (so_skip src) 0 rows) as [[per data]| |] eqn:E; try discriminate. cbn [bind fst snd] in H.
  apply skip_spec in E as (headers & -> & El & E0 & Eh). destruct (read_rows_spec _ _ _ _ _ _ Hok H) as (G & R & n & N1 & N2). exists data. split; [|split; assumption].
  exists headers. split; [reflexivity|]. split; [exact El|]. exists n. split; [apply N2; intros; apply Hne, in_or_app; right; assumption|].
  intros h hs E Nh. rewrite N1; [symmetry; eapply Eh, E|]. rewrite (Eh _ _ E). destruct h; [congruence|discriminate].
Qed.
Lemma read_csvs_spec src files : forall L L' xs, ledger_ok L -> (forall f r, In f files -> In r f -> r <> []) -> read_csvs matches rexm fuel comm children by_ofx_id by_id by_symbol L files src (Some ri) = Ok (L', xs) ->
  exists datas, Forall2 (data_rows (so_skip src)) files datas /\ grows L L' /\ rows_become (so_fields src) L' (nxt L) (nxt L') (concat datas) xs.
Proof.
  induction files as [|f files IH]; intros L L' xs Hok Hne H; cbn [read_csvs] in H.
  - injection H as <- <-. exists []. split; [constructor|]. split; [apply grows_refl, Hok|apply rows_become_nil].
  - destruct (read_csv matches rexm fuel comm children by_ofx_id by_id by_symbol L f src (Some ri)) as [[L1 ys]| |] eqn:E; try discriminate. cbn [bind fst snd] in H.
    destruct (read_csvs matches rexm fuel comm children by_ofx_id by_id by_symbol L1 files src (Some ri)) as [[L2 zs]| |] eqn:E2; try discriminate. cbn [bind fst snd] in H. injection H as <- <-.
    destruct (read_csv_spec src f L L1 ys Hok ltac:(intros; eapply Hne; [left; reflexivity|assumption]) E) as (data & D & A1 & A2).
    destruct (IH L1 L2 zs (proj1 (proj2 A1)) ltac:(intros; eapply Hne; [right; eassumption|assumption]) E2) as (datas & Ds & B1 & B2).
    exists (data :: datas). split; [constructor; assumption|]. split; [eapply grows_trans; eassumption|]. cbn [concat].
    refine (rows_become_app _ L1 L2 _ _ _ _ _ _ _ B1 (proj1 A1) eq_refl (proj1 B1) A2 B2).
Qed.
End Files.
