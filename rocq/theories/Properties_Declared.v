(** C151: what the files declare about an account. *)
From Coq Require Import Permutation Sorted.
From Verif Require Import Base M_Amount M_Date M_Names M_Parser M_Convert M_Ledger M_Output M_Listing M_Database M_Lists
  S_Amount S_Names S_Books S_Database S_Consistent S_Coin S_Lists L_Dec L_Database Properties_Parser Properties_Database Properties_Coin Properties_Coin3 Properties_Lists.

(** the last declaration of every account but Unbalanced counts: the accounts are listed with its commodity and note, and not listed
    without -c if it has a closing date *)
Theorem C151_listed_partial : forall limit w DB comm es,
  all_entries w [] [in_dir DB (B "commodities.coin"); in_dir DB (B "accounts.coin")] es ->
  exists N, forall fuel fc rex out, (N <= fuel)%nat -> coin_accounts limit w DB fuel comm fc rex out ->
  exists names line, NoDup names /\ out = flat_map line names /\
    forall n a, n <> B "Unbalanced" -> last_such (fun a => eqb_bytes n (pa_name a)) (ev_accounts es) = Some a -> match rex with None => True | Some m => m n = true end ->
      (fc = true -> In n names) /\ (fc = false -> pa_closed a <> None -> ~ In n names) /\
      exists pad pad', line n = n ++ repeat " "%char pad ++ B " | " ++ pa_commodity a ++ repeat " "%char pad' ++ B " | " ++ pa_desc a ++ [chr 10].
Proof.
  intros limit w DB comm es Hes. destruct (C139_accounts_from_files limit w DB comm es Hes) as (N & H). exists N. intros fuel fc rex out Hf Ho.
  destruct (H fuel fc rex out Hf Ho) as (names & width & A & I & _ & _ & ->). exists names, (account_line es width). split.
  { clear -A. induction A as [|a l A IH F]; constructor; [|exact IH]. intros I. pose proof (proj1 (Forall_forall _ _) F a I) as G. cbv beta in G. rewrite L_Sort.less_bytes_irrefl in G. discriminate. }
  split; [reflexivity|]. intros n a Nu La Hr.
  assert (D : declared es n = Some a) by (unfold declared; destruct (eqb_bytes n (B "Unbalanced")) eqn:E; [apply eqb_bytes_eq in E; contradiction|exact La]).
  split; [|split].
  - intros ->. apply I. split; [split; [|exact Hr]|left; reflexivity]. left. apply List.find_some in La as [J Ea]. apply eqb_bytes_eq in Ea. subst n. apply in_map. apply in_rev, J.
  - intros -> Hc J. apply I in J as (_ & [J|J]); [discriminate|]. apply J. destruct (pa_closed a) as [c|] eqn:Ec; [|congruence]. exists n, a, c. split; [constructor|auto].
  - exists (width - rune_count n)%nat, (10 - rune_count (pa_commodity a))%nat. unfold account_line. rewrite D. reflexivity.
Qed.
Print Assumptions C151_listed_partial.
(** and its postings are in that commodity *)
Theorem C151_commodity_partial : forall limit w DB compile fuel comm b es, load_all limit w DB compile fuel comm b -> all_entries w [] (database_files w DB) es ->
  forall n a, n <> B "Unbalanced" -> last_such (fun a => eqb_bytes n (pa_name a)) (ev_accounts es) = Some a -> pa_commodity a <> [] -> known es (pa_commodity a) = Some (comm n).
Proof.
  intros limit w DB compile fuel comm b es Hl Hes n a Nu La Nc. destruct (C77_load_all _ _ _ _ _ _ _ Hl) as (es' & He & _ & _ & _ & Kn & Kc & _).
  assert (es' = es) by (eapply C76_unique; eassumption). subst es'. destruct (Kc n) as (id & Hid & Ha).
  - apply Kn. left. pose proof La as La'. apply List.find_some in La' as [J Ea]. apply eqb_bytes_eq in Ea. subst n. apply in_map, in_rev, J.
  - rewrite <- (Ha a Nu La Nc). exact Hid.
Qed.
Print Assumptions C151_commodity_partial.
(** a declaration of Unbalanced is read and then lost: the account has the default commodity and no note, and is open *)
Definition udb : world := small_world
  [(B "commodities.coin", nls ["commodity CAD"; "  format 1.00 CAD"; ""; "commodity USD"; "  format 1.00 USD"]%string);
   (B "accounts.coin", nls ["account Bank"; "  note main"; "  commodity USD"; ""; "account Unbalanced"; "  note to be sorted out"; "  commodity USD"; "  closed 2019/01/01"]%string)] [].
Definition ucomm (n : bytes) : commodity := if eqb_bytes n (B "Bank") then mkCommodity 1 (B "USD") 2 else mkCommodity 0 (B "CAD") 2.
Definition ud : db := match load_list 5 udb [B "commodities.coin"; B "accounts.coin"] empty_db with Some (Ok d) => d | _ => empty_db end.
Definition uorder : list bytes := base_accounts (map fst (d_accounts ud)).
Definition utree : tree := match resolve_accounts 9 (map fst (d_accounts ud)) uorder uorder uorder with Ok (T, _) => T | _ => mkTree (fun _ => None) (fun _ => []) end.
Lemma ud_loaded : load_list 5 udb [B "commodities.coin"; B "accounts.coin"] empty_db = Some (Ok ud).
Proof. vm_compute. reflexivity. Qed.
Theorem C151_unbalanced_refuted : exists w DB limit fuel comm es a,
  all_entries w [] [in_dir DB (B "commodities.coin"); in_dir DB (B "accounts.coin")] es /\
  last_such (fun a => eqb_bytes (B "Unbalanced") (pa_name a)) (ev_accounts es) = Some a /\
  pa_commodity a = B "USD" /\ pa_desc a = B "to be sorted out" /\ pa_closed a <> None /\
  coin_accounts limit w DB fuel comm false None
    (nls ["Bank       | USD        | main"; "Root       | CAD        | "; "Unbalanced | CAD        | "]%string).
Proof.
  destruct (C76_in_place _ _ _ _ ud_loaded) as (es & He & _ & Hh). destruct Hh as (_ & _ & _ & _ & Ha & _).
  destruct (lookup (B "Unbalanced") (d_accounts ud)) as [a|] eqn:E; [|vm_compute in E; discriminate].
  exists udb, [], 5%nat, 9%nat, ucomm, es, a. split; [exact He|]. split; [rewrite <- Ha; exact E|]. vm_compute in E. injection E as <-. split; [reflexivity|]. split; [reflexivity|]. split; [discriminate|].
  exists ud, uorder, uorder, uorder, utree, uorder, uorder. split; [exact ud_loaded|]. do 4 (split; [reflexivity|]). split.
  - destruct (ok_pair (resolve_accounts 9 (map fst (d_accounts ud)) uorder uorder uorder) uorder) as [T ET]; [vm_compute; reflexivity|]. unfold utree. rewrite ET. reflexivity.
  - split; [|vm_compute; reflexivity]. replace uorder with [B "Bank"; B "Unbalanced"; B "Root"] by (vm_compute; reflexivity).
    intros n I. repeat (destruct I as [<-|I]; [vm_compute; reflexivity|]). destruct I.
Qed.
Print Assumptions C151_unbalanced_refuted.
(** the hypotheses of the first theorem: Bank in the same files *)
Example C151_hypotheses : exists es a, all_entries udb [] [in_dir [] (B "commodities.coin"); in_dir [] (B "accounts.coin")] es /\
  B "Bank" <> B "Unbalanced" /\ last_such (fun a => eqb_bytes (B "Bank") (pa_name a)) (ev_accounts es) = Some a /\ pa_commodity a = B "USD" /\ pa_desc a = B "main".
Proof.
  destruct (C76_in_place _ _ _ _ ud_loaded) as (es & He & _ & Hh). destruct Hh as (_ & _ & _ & _ & Ha & _).
  destruct (lookup (B "Bank") (d_accounts ud)) as [a|] eqn:E; [|vm_compute in E; discriminate].
  exists es, a. split; [exact He|]. split; [discriminate|]. split; [rewrite <- Ha; exact E|]. vm_compute in E. injection E as <-. split; reflexivity.
Qed.
