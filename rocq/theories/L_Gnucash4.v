(** Lemmas about M_Gnucash: the files. *)
From Coq Require Import Permutation Sorted.
From Verif Require Import Base M_Amount M_Regex M_Date M_Parser M_Writer M_Names M_Ledger M_Files S_Books S_Decimal S_Amount S_Date S_DateText S_Ledger L_Dec L_Amount L_Date L_Sort L_Names
  L_Report L_Entries L_Resolve M_Gnucash S_Gnucash L_Gnucash L_Gnucash2.

Lemma print_nat_inj n m : 0 <= n -> 0 <= m -> print_nat n = print_nat m -> n = m.
Proof.
  intros Hn Hm E. rewrite !print_nat_digits in E. apply (f_equal digits_val) in E. rewrite !digits_val_num in E by apply digits_of_ok.
  rewrite !num_digits_of in E by assumption. exact E.
Qed.
Lemma print_nat_head n : exists c r, print_nat n = c :: r /\ is_digit c = true.
Proof.
  rewrite print_nat_digits. pose proof (digits_of_ok n) as H. destruct (digits_of n) as [|d ds] eqn:E.
  - exfalso. pose proof (print_nat_digits n) as P. rewrite E in P. unfold print_nat in P. revert P. generalize (Z.to_nat (Z.log2 n)). clear. intros f P.
    assert (G : forall f n acc, print_nat_aux f n acc <> []).
    { clear. induction f as [|f IH]; intros n acc; cbn [print_nat_aux]; [discriminate|]. destruct (n / 10 =? 0); [discriminate|apply IH]. }
    exact (G _ _ _ P).
  - inversion H; subst. exists (digit_char d), (map digit_char ds). split; [reflexivity|apply digit_char_is_digit; assumption].
Qed.
Lemma print_int_inj y z : print_int y = print_int z -> y = z.
Proof.
  unfold print_int. destruct (y <? 0) eqn:Ey, (z <? 0) eqn:Ez; intros E.
  - injection E as E. apply print_nat_inj in E; lia.
  - destruct (print_nat_head z) as (c & r & Q & D). rewrite Q in E. injection E as <- _. discriminate D.
  - destruct (print_nat_head y) as (c & r & Q & D). rewrite Q in E. injection E as -> _. discriminate D.
  - apply print_nat_inj in E; lia.
Qed.
Lemma print_int_head y : exists c r, print_int y = c :: r /\ (is_digit c = true \/ c = "-"%char).
Proof.
  unfold print_int. destruct (y <? 0); [exists "-"%char, (print_nat (- y)); auto|]. destruct (print_nat_head y) as (c & r & E & D). exists c, r. auto.
Qed.
Definition year_file (ext : bytes) (y : Z) : bytes := print_int y ++ ext.
Lemma year_file_inj ext y z : year_file ext y = year_file ext z -> y = z.
Proof. intros E. apply app_inv_tail in E. apply print_int_inj, E. Qed.
Lemma eqb_bytes_false a b : a <> b -> eqb_bytes a b = false.
Proof. intros N. destruct (eqb_bytes a b) eqn:E; [apply eqb_bytes_eq in E; contradiction|reflexivity]. Qed.
Lemma fs_set_same F f v : fs_set F f v f = v.
Proof. unfold fs_set. rewrite (proj2 (eqb_bytes_eq _ _) eq_refl). reflexivity. Qed.
Lemma fs_set_other F f v g : g <> f -> fs_set F f v g = F g.
Proof. intros N. unfold fs_set. rewrite eqb_bytes_false by exact N. reflexivity. Qed.

(** the texts of the entries of a year *)
Definition of_year {A} (y : Z) (l : list (Z * A)) : list A := map snd (filter (fun e => fst e =? y) l).
Definition in_years (l : list (Z * bytes)) (ext f : bytes) : Prop := exists y, In y (map fst l) /\ f = year_file ext y.
Lemma yearly_loop_spec ext : forall l F year acc,
  StronglySorted Z.le (year :: map fst l) -> F (year_file ext year) = Some acc ->
  let F' := fst (yearly_loop ext F year (year_file ext year) l) in
  F' (year_file ext year) = Some (acc ++ concat (of_year year l)) /\
  (forall y, In y (map fst l) -> y <> year -> F' (year_file ext y) = Some (concat (of_year y l))) /\
  (forall f, f <> year_file ext year -> ~ in_years l ext f -> F' f = F f).
Proof.
  induction l as [|[y t] l IH]; intros F year acc S H; cbn zeta.
  - cbn. rewrite app_nil_r. split; [exact H|]. split; [intros y []|reflexivity].
  - cbn [yearly_loop map fst] in *. inversion S as [|? ? S1 S2]; subst. inversion S2 as [|? ? Le S3]; subst. inversion S1 as [|? ? S4 S5]; subst.
    destruct (Z.eqb_spec y year) as [->|N].
    + destruct (IH (append_file F (year_file ext year) t) year (acc ++ t)) as (I1 & I2 & I3).
      * constructor; assumption.
      * unfold append_file. rewrite fs_set_same, H. reflexivity.
      * cbn zeta in *. split; [|split].
        -- rewrite I1. unfold of_year. cbn [filter fst]. rewrite Z.eqb_refl. cbn [map snd concat]. rewrite app_assoc. reflexivity.
        -- intros y [<-|I] Ny; [contradiction|]. rewrite I2 by assumption. unfold of_year. cbn [filter fst]. destruct (Z.eqb_spec year y); [congruence|reflexivity].
        -- intros f Nf Ni. rewrite I3; [unfold append_file; apply fs_set_other, Nf|exact Nf|]. intros (z & I & E). apply Ni. exists z. split; [right; exact I|exact E].
    + change (print_int y ++ ext) with (year_file ext y).
      assert (Nf : year_file ext year <> year_file ext y) by (intros E; apply year_file_inj in E; congruence).
      destruct (IH (append_file (create_file F (year_file ext y)) (year_file ext y) t) y t) as (I1 & I2 & I3).
      * constructor; assumption.
      * unfold append_file, create_file. rewrite !fs_set_same. reflexivity.
      * cbn zeta in *.
        assert (Lt : forall z, In z (map fst l) -> y <= z) by (intros z I; rewrite Forall_forall in S5; apply S5, I).
        assert (Ny : of_year year l = []).
        { unfold of_year. replace (filter _ l) with (@nil (Z * bytes)); [reflexivity|]. symmetry. clear -Lt Le N. induction l as [|[z u] l IH]; [reflexivity|]. cbn [filter fst].
          pose proof (Lt z (or_introl eq_refl)). destruct (Z.eqb_spec z year); [lia|]. apply IH. intros w I. apply Lt. right. exact I. }
        split; [|split].
        -- rewrite I3; [|exact Nf|].
           ++ unfold append_file, create_file. rewrite !fs_set_other by exact Nf. rewrite H. f_equal.
              assert (Z0 : of_year year ((y, t) :: l) = of_year year l) by (unfold of_year; cbn [filter fst]; destruct (Z.eqb_spec y year); [contradiction|reflexivity]).
              rewrite Z0, Ny. cbn. rewrite app_nil_r. reflexivity.
           ++ intros (z & I & E). apply year_file_inj in E. subst z. pose proof (Lt _ I). lia.
        -- intros z I Nz. destruct (Z.eqb_spec z y) as [->|Nzy].
           ++ rewrite I1. unfold of_year. cbn [filter fst]. rewrite Z.eqb_refl. reflexivity.
           ++ destruct I as [<-|I]; [contradiction|]. rewrite I2 by assumption. unfold of_year. cbn [filter fst]. destruct (Z.eqb_spec y z); [congruence|reflexivity].
        -- intros f Nf' Ni. assert (Nfy : f <> year_file ext y) by (intros ->; apply Ni; exists y; split; [left; reflexivity|reflexivity]).
           rewrite I3; [|exact Nfy|].
           ++ unfold append_file, create_file. rewrite !fs_set_other by exact Nfy. reflexivity.
           ++ intros (z & I & E). apply Ni. exists z. split; [right; exact I|exact E].
Qed.
Lemma write_yearly_spec ext F year l F' y' : write_yearly ext F year l = Ok (F', y') -> StronglySorted Z.le (map fst l) ->
  l <> [] /\ (forall y, In y (map fst l) -> F' (year_file ext y) = Some (concat (of_year y l))) /\
  (forall f, ~ in_years l ext f -> F' f = F f).
Proof.
  intros H S. destruct l as [|[y t] l]; [discriminate|]. cbn [write_yearly] in H. change (print_int y ++ ext) with (year_file ext y) in H.
  split; [discriminate|]. cbn [map fst] in S.
  assert (G : exists F1, F1 (year_file ext y) = Some t /\ (forall f, f <> year_file ext y -> F1 f = F f) /\ F' = fst (yearly_loop ext F1 y (year_file ext y) l)).
  { cbn [yearly_loop] in H. destruct (Z.eqb_spec y year) as [<-|N].
    - eexists. split; [|split; [|injection H as H; rewrite H; reflexivity]].
      + unfold append_file, create_file. rewrite !fs_set_same. reflexivity.
      + intros f Nf. unfold append_file, create_file. rewrite !fs_set_other by exact Nf. reflexivity.
    - change (print_int y ++ ext) with (year_file ext y) in H. eexists. split; [|split; [|injection H as H; rewrite H; reflexivity]].
      + unfold append_file, create_file. rewrite !fs_set_same. reflexivity.
      + intros f Nf. unfold append_file, create_file. rewrite !fs_set_other by exact Nf. reflexivity. }
  destruct G as (F1 & G1 & G2 & ->). destruct (yearly_loop_spec ext l F1 y t S G1) as (I1 & I2 & I3). cbn zeta in *. split.
  - intros z I. destruct (Z.eqb_spec z y) as [->|N].
    + rewrite I1. unfold of_year. cbn [filter fst]. rewrite Z.eqb_refl. reflexivity.
    + destruct I as [<-|I]; [contradiction|]. rewrite I2 by assumption. unfold of_year. cbn [filter fst]. destruct (Z.eqb_spec y z); [congruence|reflexivity].
  - intros f Ni. assert (Nf : f <> year_file ext y) by (intros ->; apply Ni; exists y; split; [left; reflexivity|reflexivity]).
    rewrite I3; [apply G2, Nf|exact Nf|]. intros (z & I & E). apply Ni. exists z. split; [right; exact I|exact E].
Qed.

(** the text of a file is what write_items writes *)
Lemma write_items_eq acc_dec is_ : write_items acc_dec is_ = do l <- res_map (item_text acc_dec) is_; Ok (concat l).
Proof. reflexivity. Qed.
Lemma res_map_map {A C D} (f : C -> res D) (g : A -> C) l : res_map f (map g l) = res_map (fun x => f (g x)) l.
Proof. induction l as [|x l IH]; [reflexivity|]. cbn. rewrite IH. reflexivity. Qed.
Lemma tagged_spec {A} (yr : A -> Z) (tx : A -> res bytes) l r : res_map (fun x => do t <- tx x; Ok (yr x, t)) l = Ok r ->
  map fst r = map yr l /\ (forall y, res_map tx (filter (fun x => yr x =? y) l) = Ok (of_year y r)) /\ res_map tx l = Ok (map snd r).
Proof.
  revert r. induction l as [|x l IH]; intros r H; cbn in H; [injection H as <-; repeat split|].
  destruct (tx x) as [t| |] eqn:E; cbn [bind] in H; try discriminate. destruct (res_map _ l) as [r'| |] eqn:F; cbn [bind] in H; try discriminate.
  injection H as <-. destruct (IH _ eq_refl) as (I1 & I2 & I3). cbn [map fst snd]. split; [f_equal; exact I1|]. split.
  - intros y. cbn [filter]. unfold of_year. cbn [filter fst]. destruct (yr x =? y); cbn [res_map map snd]; [rewrite E; cbn [bind]; unfold of_year in I2; rewrite I2; reflexivity|apply I2].
  - cbn [res_map]. rewrite E, I3. reflexivity.
Qed.

(** ** gc2coin *)
Lemma year_file_not ext y (c : ascii) (r : bytes) : is_digit c = false -> c <> "-"%char -> year_file ext y <> c :: r.
Proof.
  intros H N E. destruct (print_int_head y) as (c' & r' & E' & D). unfold year_file in E. rewrite E' in E. cbn in E. injection E as -> _. destruct D as [D|D]; [congruence|contradiction].
Qed.
Lemma year_file_ext y z : year_file (B ".prices") y <> year_file (B ".coin") z.
Proof.
  intros E. unfold year_file in E. apply (f_equal (@rev ascii)) in E. rewrite !rev_app_distr in E. cbn in E. discriminate.
Qed.
Lemma append_created F f t : append_file (create_file F f) f t f = Some t.
Proof. unfold append_file, create_file. rewrite !fs_set_same. reflexivity. Qed.
Lemma append_other F f t g : g <> f -> append_file (create_file F f) f t g = F g.
Proof. intros N. unfold append_file, create_file. rewrite !fs_set_other by exact N. reflexivity. Qed.
Lemma holds_items acc_dec (F : fs) f is_ l : res_map (item_text acc_dec) is_ = Ok l -> F f = Some (concat l) -> holds acc_dec F f is_.
Proof. intros R E. exists (concat l). split; [exact E|]. rewrite write_items_eq, R. reflexivity. Qed.
Lemma gc2coin_single acc_dec by_name cs F c F' : gc2coin false acc_dec by_name cs F c = Ok F' ->
  holds acc_dec F' (B "commodities.coin") (commodity_items cs) /\ holds acc_dec F' (B "prices.coin") (price_items (cv_prices c)) /\
  holds acc_dec F' (B "accounts.coin") (account_items (by_name (cv_accounts c))) /\ holds acc_dec F' (B "transactions.coin") (trans_items c (cv_trans c)) /\
  forall f, ~ In f [B "commodities.coin"; B "prices.coin"; B "accounts.coin"; B "transactions.coin"] -> F' f = F f.
Proof.
  unfold gc2coin. intros H. apply bind_ok in H as (ct & Hc & H). cbn zeta in H. apply bind_ok in H as (pt & Hp & H). cbn [bind fst] in H. apply bind_ok in H as (at_ & Ha & H). apply bind_ok in H as (tt_ & Ht & H).
  apply (f_equal (fun r => match r with Ok x => x | _ => F end)) in H. cbv beta iota in H. cbn [bind fst] in H. 
  destruct (tagged_spec (fun p => year_of (st_day (cp_time p))) (fun p => item_text acc_dec (IPrice (price_item p))) _ _ Hp) as (_ & _ & Ep).
  destruct (tagged_spec (fun x => year_of (st_day (g_time x))) (fun x => item_text acc_dec (ITransaction (trans_item (cv_accounts c) (cv_ledger c) x))) _ _ Ht) as (_ & _ & Et).
  unfold write_single in H. subst F'. repeat split.
  - eapply holds_items; [exact Hc|]. rewrite !append_other by discriminate. apply append_created.
  - eapply holds_items; [unfold price_items; rewrite res_map_map; exact Ep|]. rewrite !append_other by discriminate. apply append_created.
  - eapply holds_items; [exact Ha|]. rewrite append_other by discriminate. apply append_created.
  - eapply holds_items; [unfold trans_items; rewrite res_map_map; exact Et|]. apply append_created.
  - intros f N. rewrite !append_other; [reflexivity| | | |]; intros ->; apply N; cbn; tauto.
Qed.
Lemma in_years_tagged {A} (yr : A -> Z) l (r : list (Z * bytes)) ext f : map fst r = map yr l -> in_years r ext f <-> exists x, In x l /\ f = print_int (yr x) ++ ext.
Proof.
  intros E. unfold in_years. rewrite E. split.
  - intros (y & I & ->). apply in_map_iff in I as (x & <- & I). exists x. auto.
  - intros (x & I & ->). exists (yr x). split; [apply in_map, I|reflexivity].
Qed.
Lemma gc2coin_yearly acc_dec by_name cs F c F' : gc2coin true acc_dec by_name cs F c = Ok F' ->
  StronglySorted Z.le (map price_year (cv_prices c)) -> StronglySorted Z.le (map trans_year (cv_trans c)) ->
  cv_prices c <> [] /\ cv_trans c <> [] /\
  holds acc_dec F' (B "commodities.coin") (commodity_items cs) /\ holds acc_dec F' (B "accounts.coin") (account_items (by_name (cv_accounts c))) /\
  (forall p, In p (cv_prices c) -> holds acc_dec F' (print_int (price_year p) ++ B ".prices") (price_items (filter (fun q => price_year q =? price_year p) (cv_prices c)))) /\
  (forall x, In x (cv_trans c) -> holds acc_dec F' (print_int (trans_year x) ++ B ".coin") (trans_items c (filter (fun z => trans_year z =? trans_year x) (cv_trans c)))) /\
  forall f, f <> B "commodities.coin" -> f <> B "accounts.coin" -> ~ (exists p, In p (cv_prices c) /\ f = print_int (price_year p) ++ B ".prices") ->
    ~ (exists x, In x (cv_trans c) /\ f = print_int (trans_year x) ++ B ".coin") -> F' f = F f.
Proof.
  unfold gc2coin. intros H Sp St. apply bind_ok in H as (ct & Hc & H). cbn zeta in H. apply bind_ok in H as (pt & Hp & H). apply bind_ok in H as ([Fp yp] & Hy & H).
  apply bind_ok in H as (at_ & Ha & H). apply bind_ok in H as (tt_ & Ht & H). apply bind_ok in H as ([Ft yt] & Hz & H). cbn [fst snd] in *.
  apply (f_equal (fun r => match r with Ok x => x | _ => F end)) in H. cbv beta iota in H. subst Ft.
  destruct (tagged_spec price_year (fun p => item_text acc_dec (IPrice (price_item p))) _ _ Hp) as (Yp & Ep & _).
  destruct (tagged_spec trans_year (fun x => item_text acc_dec (ITransaction (trans_item (cv_accounts c) (cv_ledger c) x))) _ _ Ht) as (Yt & Et & _).
  rewrite <- Yp in Sp. rewrite <- Yt in St. destruct (write_yearly_spec _ _ _ _ _ _ Hy Sp) as (Np & Ap & Op). destruct (write_yearly_spec _ _ _ _ _ _ Hz St) as (Nt & At & Ot).
  pose proof (fun f => in_years_tagged price_year _ _ (B ".prices") f Yp) as Ip. pose proof (fun f => in_years_tagged trans_year _ _ (B ".coin") f Yt) as It.
  split. { intros E. rewrite E in Yp. destruct pt; [congruence|discriminate]. }
  split. { intros E. rewrite E in Yt. destruct tt_; [congruence|discriminate]. }
  assert (C1 : forall r ext y, year_file ext y <> "c"%char :: r) by (intros; apply year_file_not; [reflexivity|discriminate]).
  assert (C2 : forall r ext y, year_file ext y <> "a"%char :: r) by (intros; apply year_file_not; [reflexivity|discriminate]).
  repeat split.
  - eapply holds_items; [exact Hc|]. rewrite Ot by (intros (y & _ & E); symmetry in E; exact (C1 _ _ _ E)). rewrite append_other by discriminate.
    rewrite Op by (intros (y & _ & E); symmetry in E; exact (C1 _ _ _ E)). apply append_created.
  - eapply holds_items; [exact Ha|]. rewrite Ot by (intros (y & _ & E); symmetry in E; exact (C2 _ _ _ E)). apply append_created.
  - intros p I. eapply holds_items; [unfold price_items; rewrite res_map_map; exact (Ep (price_year p))|]. change (print_int (price_year p) ++ B ".prices") with (year_file (B ".prices") (price_year p)).
    rewrite Ot by (intros (y & _ & E); exact (year_file_ext _ _ E)). rewrite append_other by exact (C2 _ _ _). apply Ap. rewrite Yp. apply in_map, I.
  - intros x I. eapply holds_items; [unfold trans_items; rewrite res_map_map; exact (Et (trans_year x))|]. apply At. rewrite Yt. apply in_map, I.
  - intros f N1 N2 N3 N4. rewrite Ot by (rewrite It; exact N4). rewrite append_other by exact N2. rewrite Op by (rewrite Ip; exact N3). apply append_other, N1.
Qed.
Lemma year_mono t t' : t <= t' -> year_of t <= year_of t'.
Proof. intros H. rewrite !mi_year. apply Z.div_le_mono; [lia|]. apply mi_mono, H. Qed.
Lemma digit_char_inj a b : 0 <= a <= 9 -> 0 <= b <= 9 -> digit_char a = digit_char b -> a = b.
Proof. intros A C E. rewrite <- (digit_char_val a), <- (digit_char_val b), E by lia. reflexivity. Qed.
Lemma dd_inj a b : 0 <= a <= 99 -> 0 <= b <= 99 -> dd a = dd b -> a = b.
Proof.
  intros A C E. unfold dd, dtext in E. cbn [map] in E. injection E as E1 E2. apply digit_char_inj in E1; [|lia|lia]. apply digit_char_inj in E2; [|lia|lia]. lia.
Qed.
Lemma moment_text_inj m m' : moment_ok m -> moment_ok m' -> moment_text m = moment_text m' -> m = m'.
Proof.
  intros (Hy & [Hm Hd] & Hh & Hmi & Hs & Hz & Hz') (Hy' & [Hm' Hd'] & Hh' & Hmi' & Hs' & Hzz & Hzz') E. unfold moment_text in E. rewrite !dddd_two in E by assumption.
  pose proof (month_days_range (mo_y m) (mo_m m)) as Hr. pose proof (month_days_range (mo_y m') (mo_m m')) as Hr'.
  destruct m as [y m d h mi s neg zh zm], m' as [y' m' d' h' mi' s' neg' zh' zm']. cbn [mo_y mo_m mo_d mo_h mo_min mo_s mo_neg mo_zh mo_zm] in *.
  assert (L : forall n, exists a b, dd n = [a; b]) by (intros n; eexists _, _; reflexivity).
  destruct (L (y / 100)) as (? & ? & L1), (L (y' / 100)) as (? & ? & L1'), (L (y mod 100)) as (? & ? & L2), (L (y' mod 100)) as (? & ? & L2').
  destruct (L m) as (? & ? & L3), (L m') as (? & ? & L3'), (L d) as (? & ? & L4), (L d') as (? & ? & L4'), (L h) as (? & ? & L5), (L h') as (? & ? & L5').
  destruct (L mi) as (? & ? & L6), (L mi') as (? & ? & L6'), (L s) as (? & ? & L7), (L s') as (? & ? & L7'), (L zh) as (? & ? & L8), (L zh') as (? & ? & L8'), (L zm) as (? & ? & L9), (L zm') as (? & ? & L9').
  rewrite L1, L1', L2, L2', L3, L3', L4, L4', L5, L5', L6, L6', L7, L7', L8, L8', L9, L9' in E.
  assert (N : neg = neg') by (destruct neg, neg'; try reflexivity; cbn in E; discriminate). subst neg'.
  assert (E' : y / 100 = y' / 100 /\ y mod 100 = y' mod 100 /\ m = m' /\ d = d' /\ h = h' /\ mi = mi' /\ s = s' /\ zh = zh' /\ zm = zm').
  { destruct neg; cbn in E; injection E; intros; subst; repeat split; apply dd_inj; try lia; congruence. }
  destruct E' as (E1 & E2 & -> & -> & -> & -> & -> & -> & ->). f_equal. lia.
Qed.
(** times written with the same offset *)
Definition offset (m : moment) : Z := signed (mo_neg m) (mo_zh m * 3600 + mo_zm m * 60).
Lemma same_zone z s t s' t' : written_at s t -> written_at s' t' ->
  (exists m, moment_ok m /\ s = moment_text m /\ offset m = z) -> (exists m, moment_ok m /\ s' = moment_text m /\ offset m = z) ->
  instant t <= instant t' -> year_of (st_day t) <= year_of (st_day t').
Proof.
  intros (m & M & -> & D & I) (m' & M' & -> & D' & I') (x & X & Ex & Zx) (x' & X' & Ex' & Zx') H. apply moment_text_inj in Ex; [|assumption|assumption]. apply moment_text_inj in Ex'; [|assumption|assumption]. subst x x'.
  apply year_mono. rewrite D, D'. rewrite I, I' in H. unfold moment_second in H. fold (offset m) in H. fold (offset m') in H. rewrite Zx, Zx' in H. clear D D' I I' Zx Zx'.
  destruct M as (_ & _ & A1 & A2 & A3 & _), M' as (_ & _ & B1 & B2 & B3 & _). revert H. generalize (moment_day m) (moment_day m'). intros a b. lia.
Qed.
