(** * C94: pools, deposits, storage and averages as shown by the views *)
From Verif Require Import Base BaseLemmas SimplePool SpecSimple SimplePoolProofs SimplePoolInv StableMath StablePool SpecStable SpecRecords StablePoolProofs StablePoolInv Rates Twap Account
  AccountProofs Pool PoolFacts Exchange SpecExchange ExchangeProofs ExchangeInv ExchangeFrames SpecWorld WorldProofs PropWorld SpecExit ExitProofs
  Views Listing ExExample PropExit PropChain.

(** ** Pages *)
Lemma indices_lookup k : forall i j x, indices i k !! j = Some x <-> (j < k)%nat /\ x = i + N.of_nat j.
Proof.
  induction k as [|k IH]; intros i j x; cbn [indices]; [rewrite lookup_nil; split; [discriminate|lia]|].
  destruct j as [|j]; cbn [lookup list_lookup].
  - split; [intros [= <-]; split; lia|intros [_ ->]; f_equal; lia].
  - rewrite (IH (i + 1) j x). split; intros [A B]; split; lia.
Qed.
Lemma indices_length k : forall i, length (indices i k) = k.
Proof. induction k as [|k IH]; intros i; cbn [indices length]; [reflexivity|]. now rewrite IH. Qed.
Lemma indices_app k1 : forall i k2, indices i (k1 + k2) = indices i k1 ++ indices (i + N.of_nat k1) k2.
Proof.
  induction k1 as [|k1 IH]; intros i k2; cbn [indices Nat.add app]; [f_equal; lia|]. rewrite IH. do 2 f_equal. f_equal. lia.
Qed.
Lemma mapM_app {A B} (f : A -> option B) l1 : forall l2 r1 r2, mapM_ f l1 = Some r1 -> mapM_ f l2 = Some r2 -> mapM_ f (l1 ++ l2) = Some (r1 ++ r2).
Proof. intros l2 r1 r2. rewrite !mapM__Forall2. apply Forall2_app. Qed.
Lemma mapM_total {A B} (f : A -> option B) l : (forall x, x ∈ l -> exists y, f x = Some y) -> exists r, mapM_ f l = Some r.
Proof.
  induction l as [|x l IH]; intros H; cbn [mapM_]; [eauto|]. destruct (H x) as [y ->]; [left|]. destruct IH as [r ->]; [|cbn; eauto].
  intros z Hz. apply H. now right.
Qed.

(** A page shows the entries [from], [from + 1], ... in order, as many as asked for and there are. *)
Theorem C94_page {A} (get : N -> option A) n from limit l :
  v_page get n from limit = Some l ->
  N.of_nat (length l) = N.min limit (n - from) /\
  forall j x, l !! j = Some x -> get (from + N.of_nat j) = Some x.
Proof.
  intros H. unfold v_page in H. bnd H e He. apply cadd_Some in He as [-> _]. apply mapM__Forall2 in H. split.
  - pose proof (Forall2_length _ _ _ H) as E. rewrite indices_length in E. rewrite <- E. lia.
  - intros j x Hx. eapply Forall2_lookup_r in H as (y & Hy & Hg); [|exact Hx]. apply indices_lookup in Hy as [_ ->]. exact Hg.
Qed.
Print Assumptions C94_page.
(** Two pages, the second starting where the first ended, are together one page.  By induction the pages of any sizes
    that follow each other show every entry once. *)
Theorem C94_pages {A} (get : N -> option A) n from k1 k2 l1 l2 :
  v_page get n from k1 = Some l1 -> v_page get n (from + k1) k2 = Some l2 -> v_page get n from (k1 + k2) = Some (l1 ++ l2).
Proof.
  intros H1 H2. unfold v_page in *. bnd H1 e1 He1. bnd H2 e2 He2. apply cadd_Some in He1 as [-> _]. apply cadd_Some in He2 as [-> Hb].
  rewrite (cadd_intro W64 from (k1 + k2)) by lia. cbn [mbind option_bind]. rewrite N.add_assoc.
  replace (N.to_nat (N.min (from + k1 + k2) n - from)) with (N.to_nat (N.min (from + k1) n - from) + N.to_nat (N.min (from + k1 + k2) n - (from + k1)))%nat by lia.
  rewrite indices_app. destruct (decide (from + k1 <= n)) as [Hle|Hgt].
  - replace (from + N.of_nat (N.to_nat (N.min (from + k1) n - from))) with (from + k1) by lia. now apply mapM_app.
  - replace (N.to_nat (N.min (from + k1 + k2) n - (from + k1))) with 0%nat in * by lia. cbn [indices mapM_] in *. injection H2 as <-. now rewrite !app_nil_r.
Qed.
Print Assumptions C94_pages.
(** A page is refused only if an entry on it cannot be shown or the sum of its bounds exceeds 2^64. *)
Theorem C94_page_shown {A} (get : N -> option A) n from limit :
  (forall i, i < n -> exists x, get i = Some x) -> (exists l, v_page get n from limit = Some l) <-> from + limit < W64.
Proof.
  intros Hg. split.
  - intros [l H]. unfold v_page in H. bnd H e He. now apply cadd_Some in He as [_ ?].
  - intros Hb. unfold v_page. rewrite cadd_intro by done. cbn [mbind option_bind]. apply mapM_total. intros i Hi.
    apply elem_of_list_lookup in Hi as [j Hj]. apply indices_lookup in Hj as [Hj ->]. apply Hg. lia.
Qed.
Print Assumptions C94_page_shown.

(** ** Pools *)
(** The amount shown for token [t]. *)
Definition shown (i : PoolInfo) (t : AccountId) : N := beside t (pi_tokens i) (pi_amounts i).

Lemma conv_beside k t : forall ts ds cs am, length ds = length ts -> conv_all (from_c k) ds cs = Some am ->
  beside t ts am = in_token_units (kept_decimals k) (beside t ts ds) (beside t ts cs).
Proof.
  assert (Z : in_token_units (kept_decimals k) 0 0 = 0) by (unfold in_token_units; destruct (0 <=? kept_decimals k); [apply N.div_0_l, N.pow_nonzero; lia|reflexivity]).
  induction ts as [|u ts IH]; intros [|d ds] cs am Hl H; try discriminate; [unfold beside; cbn; now rewrite Z|].
  cbn [conv_all] in H. destruct cs as [|x cs]; [discriminate|]. bnd H y Hy. bnd H ys Hys. injection H as <-. unfold beside in *. cbn [lookup_beside].
  destruct (String.eqb u t); [cbn; now apply from_c_Some|]. apply IH; [now injection Hl|done].
Qed.
Lemma conv_exact k : forall ds cs, length cs = length ds -> Forall (fun d => d <= kept_decimals k) ds -> exists am, conv_all (from_c k) ds cs = Some am.
Proof.
  induction ds as [|d ds IH]; intros [|x cs] Hl Hd; try discriminate; cbn [conv_all]; [eauto|]. inversion_clear Hd as [|? ? H1 H2].
  rewrite from_c_intro by done. cbn [mbind option_bind]. destruct (IH cs) as [am ->]; [now injection Hl|done|]. cbn. eauto.
Qed.
Lemma pl_info_shows rs now n p i : pl_reachable n p -> pl_info rs now p = Some i ->
  pi_kind i = pl_kind p /\ pi_tokens i = pl_tokens p /\ pi_supply i = pl_supply p /\ length (pi_amounts i) = length (pi_tokens i) /\ forall t, shown i t = pl_reserve p t.
Proof.
  intros Hr H. destruct p as [q|q]; cbn [pl_info] in H.
  - injection H as <-. cbn [pi_kind pi_tokens pi_supply pi_amounts pl_tokens pl_supply]. apply sp_reachable_wf in Hr as (_ & Hl & (x & y & Ha & _) & _).
    split; [reflexivity|]. split; [reflexivity|]. split; [reflexivity|]. split; [now rewrite Ha, Hl|reflexivity].
  - bnd H u Hu. clear Hu. bnd H am Ham. injection H as <-. cbn [pi_kind pi_tokens pi_supply pi_amounts pl_tokens pl_supply pl_reserve]. destruct Hr as (m & _ & Hr). apply st_reachable_wf in Hr as (_ & Hd & Hc & _).
    unfold st_get_amounts in Ham. pose proof (conv_all_Some _ _ _ _ Ham) as (_ & Hla & _). split_and!; auto; [congruence|].
    intros t. unfold shown. cbn [pi_tokens pi_amounts]. unfold st_reserve, st_dec, st_kept. eapply conv_beside; eauto.
Qed.
(** The exchange has a dollar price of the token. *)
Definition priced (c : Exchange) (t : AccountId) : Prop := exists d x, rs_degens (ex_rates c) !! t = Some d /\ dg_info d = Some x.
Definition all_priced (c : Exchange) (p : Pool) : Prop := pl_kind p = STABLE_SWAP KDegen -> forall t, t ∈ pl_tokens p -> priced c t.
Lemma priced_rates c now q : all_priced c (PStable q) <-> exists rs, st_get_rates q (pl_env (ex_rates c) now q) = Some rs.
Proof.
  unfold all_priced, st_get_rates, pl_env. cbn [pl_kind pl_tokens]. destruct (st_kind q); cbn [rs_pool_env pe_rate].
  - split; [eauto|discriminate].
  - split; [|discriminate]. intros _. apply mapM_total. eauto.
  - split.
    + intros H. apply mapM_total. intros t Ht. destruct (H eq_refl t Ht) as (d & x & -> & E). cbn [mbind option_bind]. rewrite E. cbn. eauto.
    + intros [rs H] _ t Ht. apply mapM__Forall2 in H. apply elem_of_list_lookup in Ht as [j Ht]. eapply Forall2_lookup_l in H as (x & _ & H); [|exact Ht].
      bnd H d Hd. destruct (dg_info d) as [y|] eqn:E; [|discriminate H]. exists d, y. auto.
Qed.
Lemma pl_info_exact c now n p : pl_reachable n p -> all_priced c p -> (forall t, t ∈ pl_tokens p -> pl_exact p t) -> exists i, pl_info (ex_rates c) now p = Some i.
Proof.
  intros Hr Hpr Hx. destruct p as [q|q]; cbn [pl_info]; [eauto|]. apply (priced_rates c now) in Hpr as [rs ->]. cbn [mbind option_bind]. destruct Hr as (m & _ & Hr). apply st_reachable_wf in Hr as (Hnd & Hd & Hc & _).
  destruct (conv_exact (st_kind q) (st_decimals q) (st_c q)) as [am Ham]; [congruence| |unfold st_get_amounts; rewrite Ham; cbn; eauto].
  apply Forall_forall. intros d Hin. apply elem_of_list_lookup in Hin as [j Hj]. destruct (lookup_lt_is_Some_2 (st_tokens q) j) as [t Ht]; [rewrite <- Hd; eapply lookup_lt_Some; exact Hj|].
  specialize (Hx t (elem_of_list_lookup_2 _ _ _ Ht)). cbn [pl_exact] in Hx. unfold st_dec in Hx. rewrite (beside_idx _ _ _ _ _ Hnd Ht Hj) in Hx. exact Hx.
Qed.

(** A pool that is shown is shown as it is: kind, tokens, shares and, for every token, the reserve; and a pool is shown
    if its tokens have no more decimals than it keeps, which is so in every rated and degen pool, and, for a degen pool, all
    have a price. *)
Theorem C94_pool w0 w now pid p :
  w_start w0 -> w_reach w0 w -> ex_pool (w_ex w) pid = Some p ->
  (forall i, v_get_pool (w_ex w) now pid = Some i ->
     pi_kind i = pl_kind p /\ pi_tokens i = pl_tokens p /\ pi_supply i = pl_supply p /\ length (pi_amounts i) = length (pi_tokens i) /\ forall t, shown i t = pl_reserve p t) /\
  (all_priced (w_ex w) p -> (forall t, t ∈ pl_tokens p -> pl_exact p t) -> exists i, v_get_pool (w_ex w) now pid = Some i) /\
  (pl_kind p = STABLE_SWAP KRated \/ pl_kind p = STABLE_SWAP KDegen -> forall t, t ∈ pl_tokens p -> pl_exact p t).
Proof.
  intros H0 Hr Hp. destruct (w_reach_ok _ _ (w_start_ok _ H0) Hr) as [Hwf _]. pose proof (ex_wf_pool _ _ _ _ Hwf Hp) as Hpr. unfold v_get_pool. rewrite Hp. cbn [mbind option_bind]. split_and!.
  - intros i Hi. eapply pl_info_shows; eauto.
  - intros Hpp Hx. eapply pl_info_exact; eauto.
  - intros Hk t Ht. destruct p as [q|q]; [exact I|]. cbn [pl_exact pl_tokens pl_kind] in *. destruct Hpr as (m & _ & Hs). apply st_reachable_wf in Hs as (Hnd & Hd & _ & _ & _ & _ & Hdd & _).
    apply elem_of_list_lookup in Ht as [j Hj]. destruct (lookup_lt_is_Some_2 (st_decimals q) j) as [d Hdj]; [rewrite Hd; eapply lookup_lt_Some; exact Hj|].
    unfold st_dec. rewrite (beside_idx _ _ _ _ _ Hnd Hj Hdj). eapply Forall_lookup_1 in Hdd; [|exact Hdj]. destruct Hdd as [_ Hdd].
    destruct Hk as [Hk|Hk]; injection Hk as ->; exact Hdd.
Qed.
Print Assumptions C94_pool.

(** A degen pool with a token that has no price (not registered, or not updated yet) is not shown, and neither is any page
    of pools with it. *)
Theorem C94_unpriced c now pid p t :
  ex_pool c pid = Some p -> pl_kind p = STABLE_SWAP KDegen -> t ∈ pl_tokens p -> ~ priced c t ->
  v_get_pool c now pid = None /\ v_get_pool_detail c now pid = None /\
  forall from limit, from <= pid < from + limit -> v_get_pools c now from limit = None /\ v_get_pool_details c now from limit = None.
Proof.
  intros Hp Hk Ht Hn.
  assert (H1 : pl_info (ex_rates c) now p = None).
  { destruct p as [q|q]; [discriminate Hk|]. cbn [pl_info]. destruct (st_get_rates q (pl_env (ex_rates c) now q)) as [rs|] eqn:E; [|reflexivity].
    exfalso. apply Hn. apply (proj2 (priced_rates c now q)); eauto. }
  assert (H2 : v_get_pool c now pid = None) by (unfold v_get_pool; rewrite Hp; exact H1).
  assert (H3 : v_get_pool_detail c now pid = None) by (unfold v_get_pool_detail; rewrite Hp; cbn [mbind option_bind]; rewrite H1; reflexivity).
  split; [exact H2|]. split; [exact H3|]. intros from limit Hb.
  assert (Hlen : pid < v_number_of_pools c) by (unfold v_number_of_pools; unfold ex_pool in Hp; apply lookup_lt_Some in Hp; lia).
  assert (K : forall A (get : N -> option A), get pid = None -> v_page get (v_number_of_pools c) from limit = None).
  { intros A get Hg. destruct (v_page get (v_number_of_pools c) from limit) as [l|] eqn:E; [|reflexivity]. exfalso. apply C94_page in E as [El Ej].
    destruct (lookup_lt_is_Some_2 l (N.to_nat (pid - from))) as [x Hx]; [lia|]. specialize (Ej _ _ Hx). replace (from + N.of_nat (N.to_nat (pid - from))) with pid in Ej by lia. congruence. }
  split; [exact (K _ _ H2)|exact (K _ _ H3)].
Qed.
Print Assumptions C94_unpriced.
(** The owner can create such a pool; no page with it, for example that of all pools, is shown from then on. *)
Definition unpriced_events : list Event := [EvCall (env 109 "own" 1) (CAddStablePool KDegen ["u"; "v"] [18; 18] 25 240)].
Definition w_unpriced : World := default w_live (w_run w_live unpriced_events).
Example C94_unpriced_ex : w_reach w_fresh w_unpriced /\ v_number_of_pools (w_ex w_unpriced) = 2 /\
  done_ (v_get_pool (w_ex w_unpriced) 110 0) = true /\ done_ (v_get_pool (w_ex w_unpriced) 110 1) = false /\ done_ (v_get_pools (w_ex w_unpriced) 110 0 10) = false.
Proof.
  split; [|repeat split; vm_compute; reflexivity].
  eapply w_run_reach; [eapply w_run_reach; [apply w_reach_refl|exact w_live_runs]|]. apply run_default. vm_compute. reflexivity.
Qed.

(** ... with its fee and, for the pools that have one, its amplification at the time; the volumes shown are the recorded ones,
    a pair for each token; several ids are shown like each of them. *)
Theorem C94_terms c now pid p i : ex_pool c pid = Some p -> v_get_pool c now pid = Some i ->
  match p with PSimple q => pi_fee i = sp_fee q /\ pi_amp i = 0 | PStable q => pi_fee i = st_fee q /\ pi_amp i = st_get_amp q now end /\
  v_get_pool_volumes c pid = Some (ex_volumes_of c pid p) /\
  (forall pids l, v_get_pool_by_ids c now pids = Some l -> length l = length pids /\ forall j x y, pids !! j = Some x -> l !! j = Some y -> v_get_pool c now x = Some y) /\
  (forall pids a l, v_get_pool_shares_batch c pids a = Some l -> length l = length pids /\ forall j x y, pids !! j = Some x -> l !! j = Some y -> v_get_pool_shares c x a = Some y).
Proof.
  intros Hp Hi. unfold v_get_pool, v_get_pool_volumes in *. rewrite Hp in *. cbn [mbind option_bind] in *. split; [|split; [reflexivity|split]].
  - destruct p as [q|q]; cbn [pl_info] in Hi; [injection Hi as <-; auto|]. bnd Hi u Hu. bnd Hi am Ham. injection Hi as <-. auto.
  - intros pids l H. apply mapM__Forall2 in H. split; [symmetry; eapply Forall2_length; eauto|]. intros j x y Hx Hy. eapply Forall2_lookup_lr in H; eauto.
  - intros pids a l H. apply mapM__Forall2 in H. split; [symmetry; eapply Forall2_length; eauto|]. intros j x y Hx Hy. eapply Forall2_lookup_lr in H; eauto.
Qed.
Print Assumptions C94_terms.

(** All that is shown of a standard token, in all pools and in the deposits of all accounts, is held by the exchange. *)
Theorem C94_backed w0 w t now l :
  w_start w0 -> w_reach w0 w -> standard t w0 w -> v_get_pools (w_ex w) now 0 (v_number_of_pools (w_ex w)) = Some l ->
  lsum ((fun i => shown i t) <$> l) + msum (fun a _ => v_get_deposit (w_ex w) a t) (ex_accounts (w_ex w)) <= w_hold w t.
Proof.
  intros H0 Hr [Hb Hx] H. destruct (w_reach_ok _ _ (w_start_ok _ H0) Hr) as [Hwf _]. pose proof (C01_solvent_partial _ _ _ H0 Hb Hx) as Hs.
  assert (E1 : lsum ((fun i => shown i t) <$> l) = total_reserves (w_ex w) t).
  { unfold total_reserves. apply C94_page in H as [Hl Hj]. f_equal. apply list_eq. intros j. rewrite !list_lookup_fmap.
    unfold v_number_of_pools in Hl. destruct (ex_pools (w_ex w) !! j) as [p|] eqn:Ep.
    - destruct (lookup_lt_is_Some_2 l j) as [i Hi]; [apply lookup_lt_Some in Ep; lia|]. rewrite Hi. cbn. f_equal. specialize (Hj _ _ Hi). rewrite N.add_0_l in Hj.
      unfold v_get_pool, ex_pool in Hj. rewrite Nat2N.id, Ep in Hj. cbn [mbind option_bind] in Hj. eapply pl_info_shows; [|exact Hj]. eapply Forall_lookup_1; [apply Hwf|exact Ep].
    - replace (l !! j) with (@None PoolInfo); [done|]. symmetry. apply lookup_ge_None. apply lookup_ge_None in Ep. lia. }
  assert (E2 : msum (fun a _ => v_get_deposit (w_ex w) a t) (ex_accounts (w_ex w)) = total_deposits (w_ex w) t).
  { unfold total_deposits. apply msum_ext. intros a v Ha. unfold v_get_deposit, ex_account. rewrite Ha. reflexivity. }
  unfold owed in Hs. rewrite E1, E2. lia.
Qed.
Print Assumptions C94_backed.

(** ** Deposits *)
(** [keys] lists the entries of the present format. *)
Definition lists (keys : list AccountId) (acc : Account) : Prop := NoDup keys /\ forall t, t ∈ keys <-> is_Some (ac_tokens acc !! t).
(** Without old-format entries the pages show exactly the deposits. *)
Theorem C94_tokens c a acc keys :
  ex_account c a = Some acc -> lists keys acc -> ac_legacy acc = ∅ -> N.of_nat (length keys) < W64 ->
  exists l, v_get_tokens_paged c a keys None None = Some l /\ NoDup l.*1 /\ forall t x, (t, x) ∈ l <-> v_get_deposits c a !! t = Some x.
Proof.
  intros Ha [Hnd Hk] Hleg Hb. unfold v_get_tokens_paged, v_get_deposits. rewrite Ha, Hleg. cbv zeta. cbn [default from_option id].
  set (get := fun i => t ← keys !! N.to_nat i; x ← ac_tokens acc !! t; Some (t, x)).
  assert (Hg : forall i, i < N.of_nat (length keys) -> exists y, get i = Some y).
  { intros i Hi. unfold get. destruct (lookup_lt_is_Some_2 keys (N.to_nat i)) as [t Ht]; [lia|]. rewrite Ht. cbn [mbind option_bind].
    destruct (proj1 (Hk t) (elem_of_list_lookup_2 _ _ _ Ht)) as [x ->]. cbn. eauto. }
  destruct (proj2 (C94_page_shown get _ 0 (N.of_nat (length keys)) Hg)) as [l Hl]; [lia|]. exists l. split; [exact Hl|].
  apply C94_page in Hl as [Hlen Hj].
  assert (Ek : l.*1 = keys).
  { apply list_eq. intros j. rewrite list_lookup_fmap. destruct (l !! j) as [[t x]|] eqn:E.
    - specialize (Hj _ _ E). unfold get in Hj. rewrite N.add_0_l, Nat2N.id in Hj. bnd Hj u Hu. bnd Hj y Hy. injection Hj as <- <-. rewrite Hu. reflexivity.
    - symmetry. apply lookup_ge_None. apply lookup_ge_None in E. lia. }
  split; [now rewrite Ek|]. intros t x. rewrite map_union_empty. split.
  - intros Hin. apply elem_of_list_lookup in Hin as [j E]. specialize (Hj _ _ E). unfold get in Hj. bnd Hj u Hu. bnd Hj y Hy. injection Hj as <- <-. exact Hy.
  - intros Hx. assert (Ht : t ∈ keys) by (apply Hk; eauto). rewrite <- Ek in Ht. apply elem_of_list_fmap in Ht as ([t' y] & -> & Hin). cbn [fst] in *.
    pose proof Hin as Hin'. apply elem_of_list_lookup in Hin' as [j E]. specialize (Hj _ _ E). unfold get in Hj. bnd Hj u Hu. bnd Hj z Hz. injection Hj as -> <-. rewrite Hx in Hz. now injection Hz as <-.
Qed.
Print Assumptions C94_tokens.
(** Old-format entries are on no page, though they are deposits. *)
Theorem C94_tokens_refuted :
  w_start w_old /\ v_get_deposit (w_ex w_old) "al" "a" = 100 /\ (exists acc, ex_account (w_ex w_old) "al" = Some acc /\ lists [] acc) /\
  forall from limit l, v_get_tokens_paged (w_ex w_old) "al" [] from limit = Some l -> l = [].
Proof.
  split; [apply C64_old_entry_refuted|]. split; [vm_compute; reflexivity|]. split.
  - eexists. split; [vm_compute; reflexivity|]. split; [constructor|]. intros t. cbn [into_current ac_tokens]. split; [intros H; inversion H|]. intros [x Hx]. vm_compute in Hx. discriminate.
  - intros from limit l H. unfold v_get_tokens_paged in H. destruct (ex_account (w_ex w_old) "al") as [acc|]; [|now injection H as <-]. apply C94_page in H as [Hl _]. cbn [length] in Hl. destruct l; [reflexivity|cbn [length] in Hl; lia].
Qed.
Print Assumptions C94_tokens_refuted.

(** ** Storage *)
(** What is shown as available can be taken back, any part of it, and nothing beyond; the rest is what the entries of the
    account cost. *)
Theorem C94_storage c e total available x :
  e_attached e = 1 -> cf_running (ex_cfg c) = true -> v_storage_balance c (e_caller e) = Some (total, available) ->
  (0 < x <= available -> exists c', ex_call c e (CStorageWithdraw x) = Some (c', [PNear (e_caller e) x]) /\ v_storage_balance c' (e_caller e) = Some (total - x, available - x)) /\
  (0 < available -> exists c', ex_call c e (CStorageWithdraw 0) = Some (c', [PNear (e_caller e) available]) /\ v_storage_balance c' (e_caller e) = Some (total - available, 0)) /\
  (available < x -> ex_call c e (CStorageWithdraw x) = None).
Proof.
  intros Hy Hr Hv. unfold v_storage_balance in Hv. bnd Hv acc Hacc. injection Hv as <- <-.
  assert (Hav : forall y, 0 < y <= ac_storage_available acc -> ac_storage_available acc = ac_near acc - ac_storage_usage acc /\ ac_storage_usage acc < ac_near acc).
  { intros y Hy'. unfold ac_storage_available in *. destruct (N.ltb_spec (ac_storage_usage acc) (ac_near acc)); [auto|lia]. }
  assert (Hgo : forall y z, 0 < y <= ac_storage_available acc -> (z = 0 /\ y = ac_storage_available acc \/ z = y) ->
    exists c', ex_call c e (CStorageWithdraw z) = Some (c', [PNear (e_caller e) y]) /\ v_storage_balance c' (e_caller e) = Some (ac_near acc - y, ac_storage_available acc - y)).
  { intros y z Hyz Hz. destruct (Hav y Hyz) as [E Hlt]. cbn [ex_call]. unfold ex_storage_withdraw, one_yocto. rewrite Hy. change (ensure (1 =? 1)) with (Some tt). cbn [mbind option_bind].
    rewrite running_intro by done. cbn [mbind option_bind]. rewrite Hacc. cbn [mbind option_bind]. cbv zeta. rewrite (ensure_intro (0 <? _)) by (apply N.ltb_lt; lia). cbn [mbind option_bind].
    replace (if z =? 0 then ac_storage_available acc else z) with y by (destruct (N.eqb_spec z 0); destruct Hz as [[-> ->]| ->]; auto; lia).
    rewrite ensure_intro by (apply N.leb_le; lia). cbn [mbind option_bind]. rewrite csub_intro by lia. cbn [mbind option_bind].
    rewrite ex_save_intro by (cbn [ac_set_near ac_near]; change (ac_storage_usage (ac_set_near acc (ac_near acc - y))) with (ac_storage_usage acc); lia). cbn [mbind option_bind]. eexists. split; [reflexivity|].
    unfold v_storage_balance. rewrite ex_account_put, String.eqb_refl. cbn [mbind option_bind]. f_equal. cbn [ac_set_near ac_near]. f_equal.
    unfold ac_storage_available. change (ac_storage_usage (ac_set_near acc (ac_near acc - y))) with (ac_storage_usage acc). cbn [ac_set_near ac_near].
    destruct (N.ltb_spec (ac_storage_usage acc) (ac_near acc - y)), (N.ltb_spec (ac_storage_usage acc) (ac_near acc)); lia. }
  split; [|split].
  - intros Hx. apply Hgo; auto.
  - intros Hx. destruct (Hgo (ac_storage_available acc) 0) as (c' & H1 & H2); [lia|auto|]. exists c'. split; [exact H1|]. rewrite H2. do 2 f_equal. lia.
  - intros Hx. cbn [ex_call]. unfold ex_storage_withdraw, one_yocto. rewrite Hy. change (ensure (1 =? 1)) with (Some tt). cbn [mbind option_bind].
    rewrite running_intro by done. cbn [mbind option_bind]. rewrite Hacc. cbn [mbind option_bind]. cbv zeta. destruct (ensure (0 <? ac_storage_available acc)) eqn:E; [|reflexivity]. cbn [mbind option_bind].
    replace (x =? 0) with false by (symmetry; apply N.eqb_neq; lia). replace (x <=? ac_storage_available acc) with false by (symmetry; apply N.leb_gt; lia). reflexivity.
Qed.
Print Assumptions C94_storage.
(** The shown usage is the price of the account and its entries, the shown available amount what the deposit exceeds it by,
    and the shown minimum pays for an account without entries. *)
Theorem C94_usage c a acc :
  ex_account c a = Some acc ->
  v_storage_state c a = Some (ac_near acc, (102 + 84 * N.of_nat (size (ac_legacy acc)) + 148 * N.of_nat (size (ac_tokens acc))) * 10 ^ 19) /\
  (forall deposit usage, v_storage_state c a = Some (deposit, usage) -> v_storage_balance c a = Some (deposit, deposit - usage)) /\
  v_storage_bounds = 102 * 10 ^ 19.
Proof.
  intros Ha. unfold v_storage_state, v_storage_balance. rewrite Ha. cbn [mbind option_bind]. split; [|split].
  - unfold ac_storage_usage, INIT_ACCOUNT_STORAGE, LEGACY_ENTRY_STORAGE, TOKEN_ENTRY_STORAGE, STORAGE_BYTE_COST. do 2 f_equal. lia.
  - intros d u [= <- <-]. do 2 f_equal. unfold ac_storage_available. destruct (N.ltb_spec (ac_storage_usage acc) (ac_near acc)); lia.
  - reflexivity.
Qed.
Print Assumptions C94_usage.
(** Leaving returns the shown total. *)
Theorem C94_leave c e total available c' ps :
  v_storage_balance c (e_caller e) = Some (total, available) -> ex_call c e CStorageUnregister = Some (c', ps) ->
  ps = [PNear (e_caller e) total] /\ v_storage_balance c' (e_caller e) = None.
Proof.
  intros Hv H. unfold v_storage_balance in Hv. bnd Hv acc Hacc. injection Hv as <- _. cbn [ex_call] in H. unfold ex_storage_unregister in H. grd H. grd H. rewrite Hacc in H. grd H. injection H as <- <-.
  split; [reflexivity|]. unfold v_storage_balance, ex_account. cbn [ex_accounts ex_set_accounts]. now rewrite lookup_delete.
Qed.
Print Assumptions C94_leave.

(** ** Averages *)
Lemma lpt_assets_spec c now pids : forall m0 m, v_lpt_assets c now pids m0 = Some m ->
  (forall pid, pid ∈ pids -> exists o, v_twap_amounts c now pid = Some o) /\
  forall pid y, m !! pid = Some y <->
    (exists l p, pid ∈ pids /\ v_twap_amounts c now pid = Some (Some l) /\ ex_pool c pid = Some p /\ y = (share_digits p, zip (pl_tokens p) l)) \/
    ((pid ∉ pids \/ v_twap_amounts c now pid = Some None) /\ m0 !! pid = Some y).
Proof.
  induction pids as [|i pids IH]; intros m0 m H; cbn [v_lpt_assets] in H.
  - injection H as <-. split; [intros ? Hin; inversion Hin|]. intros pid y. split; [right; split; [left; intros Hin; inversion Hin|done]|]. intros [(l & p & Hin & _)|[_ ?]]; [inversion Hin|done].
  - bnd H o Ho. destruct o as [l|].
    + bnd H p Hp. apply IH in H as [H1 H2]. split; [intros pid Hin; apply elem_of_cons in Hin as [->|Hin]; eauto|]. intros pid y. rewrite H2. split.
      * intros [(l' & p' & Hin & Hr)|[Hor Hm]]; [left; exists l', p'; split; [now right|exact Hr]|]. destruct (decide (i = pid)) as [<-|Hne].
        -- rewrite lookup_insert in Hm. injection Hm as <-. left. exists l, p. split; [left|auto].
        -- rewrite lookup_insert_ne in Hm by done. right. split; [|done]. destruct Hor as [Hn|?]; [left; intros Hin; apply elem_of_cons in Hin as [->|?]; auto|auto].
      * intros [(l' & p' & Hin & Hl' & Hp' & ->)|[Hor Hm]].
        -- destruct (decide (pid ∈ pids)) as [Hin'|Hn]; [left; eauto 8|]. apply elem_of_cons in Hin as [->|?]; [|done]. rewrite Ho in Hl'. injection Hl' as <-. rewrite Hp in Hp'. injection Hp' as <-.
           right. split; [auto|]. apply lookup_insert.
        -- right. assert (Hne : i <> pid) by (intros ->; destruct Hor as [Hn|Hn]; [apply Hn; left|rewrite Ho in Hn; discriminate]).
           split; [destruct Hor as [Hn|?]; [left; intros Hin; apply Hn; now right|auto]|]. now rewrite lookup_insert_ne.
    + apply IH in H as [H1 H2]. split; [intros pid Hin; apply elem_of_cons in Hin as [->|Hin]; eauto|]. intros pid y. rewrite H2. split.
      * intros [(l' & p' & Hin & Hr)|[Hor Hm]]; [left; exists l', p'; split; [now right|exact Hr]|]. right. split; [|done].
        destruct Hor as [Hn|?]; [|auto]. destruct (decide (pid = i)) as [->|Hne]; [auto|]. left. intros Hin. apply elem_of_cons in Hin as [?|?]; auto.
      * intros [(l' & p' & Hin & Hl' & Hr)|[Hor Hm]].
        -- apply elem_of_cons in Hin as [->|Hin]; [congruence|]. left; eauto 8.
        -- right. split; [|done]. destruct Hor as [Hn|?]; [left; intros Hin; apply Hn; now right|auto].
Qed.
(** The answer to the lending contract has an entry for exactly the pools asked for that have an average, with the average of each token
    and the decimals of the shares; and it is refused as a whole as soon as one of the pools asked for has no records. *)
Theorem C94_assets c now pids :
  (forall m, v_lpt_assets c now pids ∅ = Some m ->
     forall pid d l, m !! pid = Some (d, l) <->
       pid ∈ pids /\ exists p am, ex_pool c pid = Some p /\ v_twap_amounts c now pid = Some (Some am) /\ d = share_digits p /\ l = zip (pl_tokens p) am) /\
  (forall pid, pid ∈ pids -> ex_twap c !! pid = None -> v_lpt_assets c now pids ∅ = None).
Proof.
  split.
  - intros m H pid d l. apply lpt_assets_spec in H as [_ H]. rewrite (H pid (d, l)). rewrite lookup_empty. split.
    + intros [(am & p & Hin & Ht & Hp & E)|[_ ?]]; [|discriminate]. injection E as -> ->. split; [done|]. exists p, am. auto.
    + intros (Hin & p & am & Hp & Ht & -> & ->). left. exists am, p. auto.
  - intros pid Hin Ht. destruct (v_lpt_assets c now pids ∅) as [m|] eqn:E; [|reflexivity]. apply lpt_assets_spec in E as [E _]. destruct (E _ Hin) as [o Ho].
    unfold v_twap_amounts in Ho. rewrite Ht in Ho. discriminate.
Qed.
Print Assumptions C94_assets.

(** ** Example *)
(** The two pools of PropChain on two pages; an overlong page is refused; alice's storage; averages for pool 1, to which alice adds *)
Definition w_added : World := default w_fresh (w_step w_chain (EvCall (env 120 "al" 1) (CAddLiquidity 1 [4500; 5000] None))).
Definition c_averages : Exchange := ex_set_twap (w_ex w_added)
  {[1 := mkTwapInfo 20000 [2 * 10 ^ 22; 3 * 10 ^ 22] ((fun i => mkTwapRecord (N.of_nat i * 100) [N.of_nat i * 10 ^ 20; N.of_nat i * 2 * 10 ^ 20]) <$> seq 1 RECORD_COUNT_LIMIT)]}.
Example C94_ex : w_reach w_fresh w_chain /\ (forall t, standard t w_fresh w_chain) /\ v_number_of_pools (w_ex w_chain) = 2 /\
  v_get_pools (w_ex w_chain) 200 0 1 = Some [mkPoolInfo SIMPLE_POOL ["a"; "b"] [900000; 800000] 30 (10 ^ 24) 0] /\
  v_get_pools (w_ex w_chain) 200 1 5 = Some [mkPoolInfo SIMPLE_POOL ["a"; "b"] [90000; 100000] 30 (10 ^ 24) 0] /\
  v_get_pools (w_ex w_chain) 200 1 (2 ^ 64 - 1) = None /\
  v_storage_balance (w_ex w_chain) "al" = Some (10 ^ 24, 10 ^ 24 - 398 * 10 ^ 19) /\ v_storage_state (w_ex w_chain) "al" = Some (10 ^ 24, 398 * 10 ^ 19) /\
  v_get_tokens_paged (w_ex w_chain) "al" ["a"; "b"] None None = Some [("a"%string, 10000); ("b"%string, 100000)] /\
  (map_to_list <$> v_lpt_assets c_averages (20000 * 10 ^ 9) [1; 1] ∅) = Some [(1, (24, [("a"%string, 10 ^ 18); ("b"%string, 1497487437185929648)]))] /\
  v_lpt_assets c_averages (20000 * 10 ^ 9) [1; 0] ∅ = None.
Proof.
  split; [apply w_chain_reach|]. split; [apply w_chain_standard|]. do 8 (split; [vm_compute; reflexivity|]). vm_compute. reflexivity.
Qed.
