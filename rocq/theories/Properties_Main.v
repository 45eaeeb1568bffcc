(** C152-C153: the program coin from its arguments: the command called, and the listing commands with their options. *)
From Coq Require Import Permutation Sorted.
From Verif Require Import Base M_Amount M_Convert M_Date M_Names M_Tags M_Parser M_Ledger M_Report M_Database M_Output M_Listing M_Coin M_Lists M_Flags M_RegLine M_Main
  S_Decimal S_Amount S_Names S_Books S_Report S_Database S_Output S_Coin S_Listing S_Consistent S_Lists S_Flags S_RegLine S_Main L_Dec L_Resolve L_Entries L_Flags L_Coin2
  Properties_Parser Properties_Database Properties_Coin Properties_Coin3 Properties_Flags Properties_RegLine Properties_Lists.
Local Open Scope Z_scope.

(** ** C152 *)
Lemma called_in c n : called c n <-> existsb (eqb_bytes n) (names_of c) = true.
Proof.
  rewrite existsb_exists. unfold called, names_of. split.
  - intros H. exists n. split; [destruct c; exact H|apply eqb_bytes_refl].
  - intros (x & I & E). apply eqb_bytes_eq in E. subst x. destruct c; exact I.
Qed.
(** a name belongs to one command *)
Theorem C152_one_command : forall c c' n, called c n -> called c' n -> c = c'.
Proof.
  intros c c' n H H'. unfold called in H. destruct c; cbn [map In] in H; repeat (destruct H as [H|H]; [subst n; unfold called in H'; destruct c'; try reflexivity; cbn [map In] in H'; repeat (destruct H' as [H'|H']; [discriminate H'|]); destruct H'|]); destruct H.
Qed.
Print Assumptions C152_one_command.
Lemma alias_called n c : alias n = Some c <-> called c n.
Proof.
  split.
  - intros H. apply List.find_some in H as [_ H]. apply called_in, H.
  - intros H. unfold alias. destruct (List.find _ (rev all_commands)) as [c'|] eqn:E.
    + apply List.find_some in E as [_ E]. apply called_in in E. f_equal. eapply C152_one_command; eassumption.
    + exfalso. assert (I : In c (rev all_commands)) by (apply in_rev; rewrite rev_involutive; destruct c; cbn; tauto). pose proof (List.find_none _ _ E c I) as X. cbv beta in X. apply called_in in H. congruence.
Qed.
(** the program runs the command that its arguments call for *)
Theorem C152_calls : forall args c line, dispatch args = Ok (c, line) <-> calls args c line.
Proof.
  intros args c line. unfold dispatch. split.
  - intros H. destruct (alias _) as [c'|] eqn:E; [|discriminate]. injection H as -> <-. destruct args as [|n args].
    + apply alias_called in E. assert (c = Balance) by (eapply C152_one_command; [exact E|left; reflexivity]). subst c. constructor.
    + constructor. apply alias_called, E.
  - intros H. destruct H as [|n c line H]; [reflexivity|]. apply alias_called in H. rewrite H. reflexivity.
Qed.
Print Assumptions C152_calls.
(** and otherwise stops *)
Theorem C152_unknown : forall args, dispatch args = Fail <-> exists n line, args = n :: line /\ forall c, ~ called c n.
Proof.
  intros args. unfold dispatch. destruct args as [|n line].
  - split; [discriminate|intros (n & l & E & _); discriminate E].
  - destruct (alias n) as [c|] eqn:E.
    + split; [discriminate|]. intros (n' & l & X & H). injection X as <- <-. destruct (H c). apply alias_called, E.
    + split; [|reflexivity]. intros _. exists n, line. split; [reflexivity|]. intros c H. apply alias_called in H. congruence.
Qed.
Print Assumptions C152_unknown.
(** so from a loaded database: *)
Theorem C152_coin : forall td fuel compile rexm o comm b tx_of loc order o_tx o_post o_keys args c line, calls args c line ->
  let out := coin_line td fuel compile rexm o comm b tx_of loc order o_tx o_post o_keys args in
  match c with
  | Balance => out = balance_line td fuel compile rexm o comm b tx_of line
  | Register => out = register_line td fuel compile rexm o comm b tx_of loc order line
  | Stats => out = stats_line td comm loc b line
  | Tags => out = tags_line rexm o_tx o_post o_keys b line
  | Accounts | Commodities | Format | Modify | Test | Version => True (* these print from other files, or none *)
  end.
Proof. intros td fuel compile rexm o comm b tx_of loc order o_tx o_post o_keys args c line H. apply C152_calls in H. cbv zeta. unfold coin_line. rewrite H. destruct c; exact I || reflexivity. Qed.
Print Assumptions C152_coin.
(** coin alone lists all accounts with a balance, all the entries of the files counted *)
Theorem C152_alone : forall td limit w DB compile rexm fuel comm b es, load_all limit w DB compile fuel comm b -> all_entries w [] (database_files w DB) es ->
  forall tx_of, (forall x p, In x (b_txs b) -> In p (x_posts x) -> tx_of p = x) ->
  let find := must_find_account compile (b_names b) in let parent := t_parent (b_tree b) in let id := commodity_id (b_db b) in
  (forall t, In t (map snd (ev_txs es)) -> in_account_commodity find comm t) ->
  exists N, forall o fuel' com loc order o_tx o_post o_keys, (N <= fuel')%nat -> (forall x, In x (b_names b) -> comm x = com) ->
    exists own total, posted_totals es (b_names b) parent find rexm None None [] [] own total /\
      ((forall x, under parent (B "Root") x -> printable (mkAmount (own x) com) /\ printable (mkAmount (total x) com)) ->
       exists lines, coin_line td fuel' compile rexm o comm b tx_of loc order o_tx o_post o_keys [] = Ok (table_text lines) /\
         listed parent id com (B "Root") 0 false own total lines).
Proof.
  intros td limit w DB compile rexm fuel comm b es Hl Hes tx_of Htx find parent id Hq.
  destruct (book_facts _ _ _ _ _ _ _ _ Hl Hes) as (_ & _ & _ & HT & _).
  destruct (C146_balance td _ _ _ _ rexm _ _ _ _ Hl Hes tx_of Htx Hq) as (N & H). exists N.
  intros o fuel' com loc order o_tx o_post o_keys Hf Hc.
  apply (H o fuel' [] (B "Root") None None [] [] 0 false com Hf).
  - exists [], []. split; [constructor; constructor|]. split; [reflexivity|]. repeat (split; [right; split; [intros []|reflexivity]|]). right. split; [intros []|reflexivity].
  - intros x U. apply Hc. apply (in_names _ _ _ x HT (proj1 (proj2 HT)) U).
Qed.
Print Assumptions C152_alone.
(** ** C153 *)
Ltac accepts_opts := unfold stats_flags, tags_flags, accounts_flags, commodities_flags, stats_options, tags_options, accounts_options, commodities_options; cbn [map option_of];
  repeat (constructor; [split; [reflexivity|]; split; [reflexivity|]; cbn [o_takes option_of fl_set]; intros v; first [apply date_takes|apply switch_takes]|]); constructor.
Ltac names_fine := split; [|repeat constructor; cbn; intuition discriminate]; repeat constructor; cbn [fl_name]; do 2 eexists; (split; [reflexivity|]); (split; [discriminate|]); cbn; intuition discriminate.
Lemma stats_accepts td given args line : parse_flags (stats_flags td) line = Ok (given, args) <-> command_line (stats_options td) given args line.
Proof.
  assert (X : Forall (fun f => name_ok (fl_name f)) (stats_flags td) /\ NoDup (map fl_name (stats_flags td))) by names_fine. destruct X as (Fn & N).
  rewrite (C145_command_line _ Fn N). split; apply same_lines; accepts_opts.
Qed.
Lemma tags_accepts given args line : parse_flags tags_flags line = Ok (given, args) <-> command_line tags_options given args line.
Proof.
  assert (X : Forall (fun f => name_ok (fl_name f)) tags_flags /\ NoDup (map fl_name tags_flags)) by names_fine. destruct X as (Fn & N).
  rewrite (C145_command_line _ Fn N). split; apply same_lines; accepts_opts.
Qed.
Lemma accounts_accepts given args line : parse_flags accounts_flags line = Ok (given, args) <-> command_line accounts_options given args line.
Proof.
  assert (X : Forall (fun f => name_ok (fl_name f)) accounts_flags /\ NoDup (map fl_name accounts_flags)) by names_fine. destruct X as (Fn & N).
  rewrite (C145_command_line _ Fn N). split; apply same_lines; accepts_opts.
Qed.
Lemma commodities_accepts given args line : parse_flags commodities_flags line = Ok (given, args) <-> command_line commodities_options given args line.
Proof.
  assert (X : Forall (fun f => name_ok (fl_name f)) commodities_flags /\ NoDup (map fl_name commodities_flags)) by names_fine. destruct X as (Fn & N).
  rewrite (C145_command_line _ Fn N). split; apply same_lines; accepts_opts.
Qed.
(** coin tags with a command line: the names matching the first argument, in any case; -v for the values, -a for the accounts *)
Theorem C153_tags : forall limit w DB compile rexm fuel comm b es, load_all limit w DB compile fuel comm b -> all_entries w [] (database_files w DB) es ->
  let find := must_find_account compile (b_names b) in
  exists ts, ordered_as_loaded (ev_txs es) ts /\
  forall given args line values accounts o_tx o_post o_keys,
    command_line tags_options given args line -> switched given "v" values -> switched given "a" accounts ->
    (forall i l, Permutation l (o_tx i l)) -> (forall p l, Permutation l (o_post p l)) -> (forall l, Permutation l (o_keys l)) ->
    let said := tag_said (map snd (ev_txs es)) in
    exists names vals,
      ascending names /\ (forall k, In k names <-> match args with [] => True | a :: _ => rexm (B "(?i)" ++ a) k = true end /\ exists v, said k v) /\
      (forall k, In k names -> ascending (vals k) /\ forall v, In v (vals k) <-> v <> [] /\ said k v) /\
      tags_line rexm o_tx o_post o_keys b line = Ok (flat_map (fun k => tag_row values accounts k (vals k) (firsts (accounts_said find (map snd ts) k))) names).
Proof.
  intros limit w DB compile rexm fuel comm b es Hl Hes find. destruct (C137_tags_from_files _ _ _ _ _ _ _ _ Hl Hes) as (ts & Ho & H). exists ts. split; [exact Ho|].
  intros given args line values accounts o_tx o_post o_keys C Hv Ha H1 H2 H3 said.
  destruct (H (match args with a :: _ => Some (rexm (B "(?i)" ++ a)) | [] => None end) values accounts o_tx o_post o_keys H1 H2 H3) as (names & vals & A & I & V & E).
  exists names, vals. split; [exact A|]. split; [intros k; rewrite I; destruct args; reflexivity|]. split; [exact V|].
  unfold tags_line. apply tags_accepts in C. rewrite C. cbn [bind fst snd]. rewrite (switch_value _ _ _ Hv), (switch_value _ _ _ Ha). exact E.
Qed.
Print Assumptions C153_tags.
(** coin stats with a command line: -d for the pairs of transactions that look the same, otherwise -u and -c for the findings and the counts,
    from -b to before -e *)
Theorem C153_stats : forall td limit w DB compile fuel comm b es, load_all limit w DB compile fuel comm b -> all_entries w [] (database_files w DB) es ->
  let find := must_find_account compile (b_names b) in
  (forall t, In t (map snd (ev_txs es)) -> in_account_commodity find comm t) -> (forall a, In a (b_names b) -> (c_dec (comm a) <= 50)%nat) ->
  exists ts, ordered_as_loaded (ev_txs es) ts /\ List.length ts = List.length (b_txs b) /\
  forall loc, Forall2 (fun v x => loc x = location v) ts (b_txs b) -> forall given args line dupes fu fc begin end_,
    command_line (stats_options td) given args line -> switched given "d" dupes -> switched given "u" fu -> switched given "c" fc ->
    date_asked td given "b" begin -> date_asked td given "e" end_ ->
    let inside := filter (fun v => in_range begin end_ (t_posted (snd v))) ts in
    if dupes then forall dflt, let at_ i := nth i inside dflt in
      stats_line td comm loc b line =
      texts (map (fun ij => duplicate_text find comm (at_ (fst ij)) (at_ (snd ij)))
                 (filter (fun ij => looks_same find (snd (at_ (snd ij))) (snd (at_ (fst ij)))) (pairs_before (List.length inside))))
    else forall commodities accounts, NoDup commodities -> (forall id, In id commodities <-> In id (map pc_id (ev_comms es))) ->
      NoDup accounts -> (forall n, In n accounts <-> needed (map pa_name (ev_accounts es)) n) ->
      stats_line td comm loc b line =
      texts (flat_map (findings find comm fu fc) inside ++
             [Ok (counts_text (List.length commodities) (List.length (ev_prices es)) (List.length accounts) (List.length inside))]).
Proof.
  intros td limit w DB compile fuel comm b es Hl Hes find HQ HD. destruct (C138_stats_from_files _ _ _ _ _ _ _ _ Hl Hes HQ HD) as (ts & Ho & Ln & H). exists ts. split; [exact Ho|]. split; [exact Ln|].
  intros loc Fl given args line dupes fu fc begin end_ C Hd Hu Hc Hb He inside. destruct (H loc Fl begin end_) as (K1 & K2). apply stats_accepts in C.
  assert (E : stats_line td comm loc b line = coin_stats comm loc dupes fu fc begin end_ b).
  { unfold stats_line. rewrite C. cbn [bind fst snd]. rewrite (switch_value _ _ _ Hd), (switch_value _ _ _ Hu), (switch_value _ _ _ Hc), (date_value _ _ _ _ Hb), (date_value _ _ _ _ He). reflexivity. }
  rewrite E. destruct dupes; [intros dflt; exact (K1 fu fc dflt)|exact (K2 fu fc)].
Qed.
Print Assumptions C153_stats.
(** coin accounts with a command line: the accounts matching the first argument; closed ones too with -c *)
Theorem C153_accounts : forall limit w DB compile comm es,
  all_entries w [] [in_dir DB (B "commodities.coin"); in_dir DB (B "accounts.coin")] es ->
  exists N, forall fuel line out, (N <= fuel)%nat -> accounts_line limit w DB compile fuel comm line out ->
  exists given args closed, command_line accounts_options given args line /\ switched given "c" closed /\
  let listed n := needed (map pa_name (ev_accounts es)) n /\ match args with [] => True | a :: _ => compile a n = true end in
  exists names width, ascending names /\ (forall n, In n names <-> listed n /\ (closed = true \/ ~ closed_said es n)) /\
    (forall n, listed n -> (List.length n <= width)%nat) /\ (width = O \/ exists n, listed n /\ List.length n = width) /\
    out = flat_map (account_line es width) names.
Proof.
  intros limit w DB compile comm es Hes. destruct (C139_accounts_from_files limit w DB comm es Hes) as (N & H). exists N.
  intros fuel line out Hf ((given & args) & C & Ho). apply accounts_accepts in C. cbn [fst snd] in Ho.
  assert (S : exists x, switched given "c" x).
  { apply value_exists. intros v I. destruct (given_taken _ _ _ _ C _ _ I) as (o & Io & _ & T). destruct Io as [<-|[]]. exact T. }
  destruct S as (closed & S). rewrite (switch_value _ _ _ S) in Ho. exists given, args, closed. split; [exact C|]. split; [exact S|].
  intros listed. destruct (H fuel closed _ out Hf Ho) as (names & width & A & I & W1 & W2 & E). exists names, width. split; [exact A|].
  assert (L : forall n, listed n <-> needed (map pa_name (ev_accounts es)) n /\ match (match args with a :: _ => Some (compile a) | [] => None end) with None => True | Some m => m n = true end)
    by (intros n; unfold listed; destruct args; reflexivity).
  split; [intros n; rewrite I, L; reflexivity|]. split; [intros n Ln; apply W1, L, Ln|]. split; [|exact E].
  destruct W2 as [W2|(n & Ln & En)]; [left; exact W2|right; exists n; split; [apply L, Ln|exact En]].
Qed.
Print Assumptions C153_accounts.
(** every accepted line is such a listing of what the files say, and a listing is printed for every accepted line *)
Theorem C153_accounts_listed : forall w DB compile es, all_entries w [] [in_dir DB (B "commodities.coin"); in_dir DB (B "accounts.coin")] es -> Forall named es ->
  exists limit0, forall limit, (limit0 <= limit)%nat -> forall fuel line,
  (exists comm out, accounts_line limit w DB compile fuel comm line out) <->
  (exists given args, command_line accounts_options given args line) /\ (forall n, account_exists es n -> exists c, account_commodity es n c).
Proof.
  intros w DB compile es Hes Hn. destruct (C139_listed w DB es Hes Hn) as (k & K). exists k. intros limit Hl fuel line. split.
  - intros (comm & out & (given & args) & C & Ho). split; [exists given, args; apply accounts_accepts, C|]. eapply (K limit Hl fuel). eauto.
  - intros ((given & args & C) & Hc). apply accounts_accepts in C.
    destruct (proj2 (K limit Hl fuel (bool_setting (B "c") given) (match args with a :: _ => Some (compile a) | [] => None end)) Hc) as (comm & out & Ho).
    exists comm, out, (given, args). split; [exact C|exact Ho].
Qed.
Print Assumptions C153_accounts_listed.
(** coin commodities without an argument *)
Theorem C153_commodities : forall limit w DB es, all_entries w [] [in_dir DB (B "commodities.coin")] es ->
  forall line out, commodities_line limit w DB line out ->
  (exists given, command_line commodities_options given [] line /\ switched given "q" false /\ switched given "p" false) /\
  exists ids, ascending ids /\ (forall id, In id ids <-> In id (map pc_id (ev_comms es))) /\ out = flat_map (commodity_row es) ids.
Proof.
  intros limit w DB es Hes line out (given & C & Hq & Hp & Ho). apply commodities_accepts in C. split; [|exact (C140_commodities_from_files limit w DB es Hes out Ho)].
  exists given. split; [exact C|].
  assert (S : forall n, In (B n) [B "q"; B "p"; B "f"] -> exists x, switched given n x).
  { intros n In_. apply value_exists. intros v I. destruct (given_taken _ _ _ _ C _ _ I) as (o & Io & _ & T). destruct Io as [<-|[<-|[<-|[]]]]; exact T. }
  destruct (S "q"%string (or_introl eq_refl)) as (x & Sx), (S "p"%string (or_intror (or_introl eq_refl))) as (y & Sy).
  rewrite (switch_value _ _ _ Sx) in Hq. rewrite (switch_value _ _ _ Sy) in Hp. subst x y. auto.
Qed.
Print Assumptions C153_commodities.
(** lines that are not of the options end the program *)
Theorem C153_rejected : forall td limit w DB compile rexm fuel comm loc o_tx o_post o_keys b line,
  ((forall given args, ~ command_line (stats_options td) given args line) -> stats_line td comm loc b line = Fail) /\
  ((forall given args, ~ command_line tags_options given args line) -> tags_line rexm o_tx o_post o_keys b line = Fail) /\
  ((forall given args, ~ command_line accounts_options given args line) -> forall out, ~ accounts_line limit w DB compile fuel comm line out) /\
  ((forall given args, ~ command_line commodities_options given args line) -> forall out, ~ commodities_line limit w DB line out).
Proof.
  intros td limit w DB compile rexm fuel comm loc o_tx o_post o_keys b line. repeat split.
  - intros H. unfold stats_line. destruct (parse_flags (stats_flags td) line) as [[given args]| |] eqn:E; [destruct (H given args); apply stats_accepts, E|reflexivity|].
    destruct (parse_no_panic _ (List.length line) line (le_n _) E).
  - intros H. unfold tags_line. destruct (parse_flags tags_flags line) as [[given args]| |] eqn:E; [destruct (H given args); apply tags_accepts, E|reflexivity|].
    destruct (parse_no_panic _ (List.length line) line (le_n _) E).
  - intros H out ((given & args) & C & _). apply (H given args), accounts_accepts, C.
  - intros H out (given & C & _). apply (H given []), commodities_accepts, C.
Qed.
Print Assumptions C153_rejected.
(** ** Examples *)
Example C152_example : calls [] Balance [] /\ calls [B "reg"; B "-r"; B "Assets"] Register [B "-r"; B "Assets"] /\ dispatch [B "-e"; B "2020"] = Fail /\ dispatch [B "Balance"] = Fail.
Proof. split; [constructor|]. split; [constructor; right; left; reflexivity|]. split; vm_compute; reflexivity. Qed.
Example C153_accounts_example : accounts_line 5 ldb [] (fun p n => has_prefix p n) 9 lcomm [B "-c"; B "Assets:"] (nls ["Assets:Old     | XYZ        | "; "Assets:Old:Sub | CAD        | gone"]%string).
Proof.
  eexists. split; [vm_compute; reflexivity|]. cbn [fst snd]. destruct C139_example as (_ & E). destruct C139_hypotheses as (_ & H). rewrite <- E. apply H.
Qed.
Example C153_tags_example : parse_flags tags_flags [B "--v"; B "-a=F"; B "tr"; B "-x"] = Ok ([(B "v", B "true"); (B "a", B "F")], [B "tr"; B "-x"]) /\
  command_line tags_options [(B "v", B "true"); (B "a", B "F")] [B "tr"; B "-x"] [B "--v"; B "-a=F"; B "tr"; B "-x"].
Proof. split; [vm_compute; reflexivity|]. apply tags_accepts. vm_compute. reflexivity. Qed.
