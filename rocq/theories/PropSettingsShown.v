(** * C109: the settings, fees and lists shown are those applied.
    Vocabulary: SpecAccess.v (calls that involve a token), SpecExchange.v. *)
From stdpp Require Import pretty.
From Verif Require Import Base BaseLemmas SimplePool SpecSimple SimplePoolProofs SimplePoolInv SimpleFacts StableMath StablePool StablePoolProofs StablePoolInv SpecStable PropSimple PropStable PropExact PropPrecise PropPrice PropIds Rates Echo PropEcho.
From Verif Require Import Account Pool Exchange SpecExchange ExchangeProofs ExchangeInv PoolFacts SpecWorld WorldProofs PropWorld ExExample SpecAccess PropAccess.
From Verif Require Import Views Listing PropShown SettingsViews SpecExact.

(** ** Who may stop and start the exchange *)
(** Exactly the owner and the guardians shown may stop it, exactly the owner shown may start it again; what is shown of the state follows. *)
Theorem C109_stop c e : e_attached e = 1 ->
  ((exists c' ps, ex_call c e (CChangeState false) = Some (c', ps)) <-> e_caller e = md_owner (v_metadata c) \/ e_caller e ∈ md_guardians (v_metadata c)) /\
  (md_running (v_metadata c) = false ->
    ((exists c' ps, ex_call c e (CChangeState true) = Some (c', ps)) <-> e_caller e = v_owner c)) /\
  (forall b c' ps, ex_call c e (CChangeState b) = Some (c', ps) -> md_running (v_metadata c') = b /\ md_guardians (v_metadata c') = v_guardians c /\ v_owner c' = v_owner c).
Proof.
  intros Hy. cbn [ex_call]. unfold ex_change_state, guard_call, one_yocto. rewrite Hy. change (ensure (1 =? 1)) with (Some tt). cbn [mbind option_bind].
  assert (G : is_guard c e = true <-> e_caller e = md_owner (v_metadata c) \/ e_caller e ∈ md_guardians (v_metadata c)).
  { unfold is_guard, is_owner, v_metadata. cbn [md_owner md_guardians]. rewrite orb_true_iff, String.eqb_eq, bool_decide_eq_true, elem_of_elements. reflexivity. }
  assert (O : is_owner c e = true <-> e_caller e = v_owner c) by (unfold is_owner, v_owner; apply String.eqb_eq).
  split_and!.
  - rewrite <- G. split.
    + intros (c' & ps & H). destruct (is_guard c e); [done|discriminate H].
    + intros ->. cbn [ensure mbind option_bind]. destruct (Bool.eqb (cf_running (ex_cfg c)) false); cbn; eauto.
  - unfold v_metadata. cbn [md_running]. intros ->. cbn [Bool.eqb]. rewrite <- O. split.
    + intros (c' & ps & H). destruct (is_guard c e); [|discriminate H]. destruct (is_owner c e); [done|discriminate H].
    + intros Ho. assert (is_guard c e = true) as -> by (unfold is_guard; now rewrite Ho). rewrite Ho. cbn. eauto.
  - intros b c' ps H. destruct (is_guard c e); [|discriminate H]. cbn [ensure mbind option_bind] in H.
    destruct (Bool.eqb (cf_running (ex_cfg c)) b) eqn:E.
    + cbn in H. injection H as <- <-. apply Bool.eqb_prop in E. unfold v_metadata, v_guardians. cbn [md_running md_guardians]. auto.
    + destruct b; [destruct (is_owner c e); [|discriminate H]|]; cbn in H; injection H as <- <-; split_and!; reflexivity.
Qed.
Print Assumptions C109_stop.

(** ** Frozen tokens, and tokens that may be traded *)
(** Calls that involve a token shown as frozen fail. *)
Theorem C109_frozen c e x t : t ∈ v_frozen_tokens c -> involves c x t -> ex_call c e x = None.
Proof. unfold v_frozen_tokens. rewrite elem_of_elements. apply C29_calls_fail. Qed.
Print Assumptions C109_frozen.

(** The tokens shown for an account are those it has deposits of, of 0 too. *)
Theorem C109_own c a t : t ∈ v_user_tokens c a <-> is_Some (v_get_deposits c a !! t).
Proof.
  unfold v_user_tokens, v_get_deposits. destruct (ex_account c a) as [acc|]; [|split; [intros H; inversion H|rewrite lookup_empty; intros [? [=]]]].
  rewrite elem_of_app, lookup_union_is_Some, !elem_of_list_fmap. split.
  - intros [([k x] & -> & H)|([k x] & -> & H)]; apply elem_of_map_to_list in H; cbn [fst]; eauto.
  - intros [[x H]|[x H]]; apply elem_of_map_to_list in H; [left|right]; now exists (t, x).
Qed.
Print Assumptions C109_own.

(** A trade without attached NEAR is refused unless each of its tokens is shown for the account, shown as whitelisted, or ends with a shown postfix. *)
Theorem C109_traded c e l r skip c' y t :
  e_attached e = 0 -> ex_swap c e l r skip = Some (c', y) -> t ∈ act_tokens l ->
  t ∈ v_user_tokens c (e_caller e) \/ t ∈ v_whitelisted_tokens c \/ exists p pre, p ∈ md_postfix (v_metadata c) /\ t = String.append pre p.
Proof.
  intros Hz H Ht. unfold ex_swap in H. grd H. bnd H r1 Hr1. destruct r1 as [c1 res]. clear H. unfold ex_execute_actions in Hr1. grd Hr1. grd Hr1. bnd Hr1 acc Hacc.
  rewrite Hz in Hr1. cbn [N.eqb] in Hr1. bnd Hr1 u Hu. destruct u. clear Hr1. unfold known_tokens in Hu. apply ensure_Some in Hu as G2. clear G1. rename G2 into G1. rewrite forallb_forall in G1. specialize (G1 t (proj1 (elem_of_list_In _ _) Ht)). apply orb_true_iff in G1 as [G1|G1].
  - left. apply C109_own. unfold v_get_deposits. rewrite Hacc. unfold ac_get_balance in G1. apply lookup_union_is_Some.
    destruct (ac_tokens acc !! t) eqn:E1; [left; eauto|]. destruct (ac_legacy acc !! t) eqn:E2; [right; eauto|discriminate G1].
  - right. unfold ex_whitelisted in G1. apply C37_whitelisted_token_exact in G1 as [G1|(p & pre & Hp & ->)]; [left|right].
    + unfold v_whitelisted_tokens. now apply elem_of_elements.
    + exists p, pre. split; [unfold v_metadata; cbn [md_postfix]; now apply elem_of_elements|reflexivity].
Qed.
Print Assumptions C109_traded.

(** ** Pages of referrals and of value limits *)
Definition lists_keys {K A} `{Countable K} (keys : list K) (m : gmap K A) : Prop := NoDup keys /\ forall k, k ∈ keys <-> is_Some (m !! k).
(** Whatever the order of the keys, the whole list shows each entry once with its value, a page shows a part of it. *)
Theorem C109_map_page {K A} `{Countable K} (m : gmap K A) keys :
  lists_keys keys m -> N.of_nat (length keys) < W64 ->
  exists l, v_map_page m keys None None = Some l /\ l.*1 = keys /\ (forall k x, (k, x) ∈ l <-> m !! k = Some x) /\
    forall from limit, from + limit < W64 -> v_map_page m keys (Some from) (Some limit) = Some (take (N.to_nat limit) (drop (N.to_nat from) l)).
Proof.
  intros [Hnd Hk] Hb. unfold v_map_page. cbv zeta. cbn [default from_option id].
  set (get := fun i => k ← keys !! N.to_nat i; x ← m !! k; Some (k, x)). set (n := N.of_nat (length keys)).
  assert (Hg : forall i, i < n -> exists y, get i = Some y).
  { intros i Hi. unfold get. destruct (lookup_lt_is_Some_2 keys (N.to_nat i)) as [k Hki]; [lia|]. rewrite Hki. cbn [mbind option_bind].
    destruct (proj1 (Hk k) (elem_of_list_lookup_2 _ _ _ Hki)) as [x ->]. cbn. eauto. }
  destruct (proj2 (C94_page_shown get n 0 n Hg)) as [l Hl]; [lia|]. exists l. split; [exact Hl|]. apply C94_page in Hl as [Hlen Hj].
  assert (Ek : l.*1 = keys).
  { apply list_eq. intros j. rewrite list_lookup_fmap. destruct (l !! j) as [[k x]|] eqn:E.
    - specialize (Hj _ _ E). unfold get in Hj. rewrite N.add_0_l, Nat2N.id in Hj. bnd Hj u Hu. bnd Hj y Hy. injection Hj as <- <-. rewrite Hu. reflexivity.
    - symmetry. apply lookup_ge_None. apply lookup_ge_None in E. lia. }
  split; [exact Ek|]. split.
  - intros k x. split.
    + intros Hin. apply elem_of_list_lookup in Hin as [j E]. specialize (Hj _ _ E). unfold get in Hj. bnd Hj u Hu. bnd Hj y Hy. injection Hj as <- <-. exact Hy.
    + intros Hx. assert (Hi : k ∈ keys) by (apply Hk; eauto). rewrite <- Ek in Hi. apply elem_of_list_fmap in Hi as ([k' y] & -> & Hin). cbn [fst] in *.
      pose proof Hin as Hin'. apply elem_of_list_lookup in Hin' as [j E]. specialize (Hj _ _ E). unfold get in Hj. bnd Hj u Hu. bnd Hj z Hz. injection Hj as -> <-. rewrite Hx in Hz. now injection Hz as <-.
  - intros from limit Hfl. destruct (proj2 (C94_page_shown get n from limit Hg)) as [l' Hl']; [exact Hfl|]. rewrite Hl'. f_equal. apply C94_page in Hl' as [Hlen' Hj'].
    apply list_eq. intros j. destruct (l' !! j) as [y|] eqn:E.
    + pose proof (lookup_lt_Some _ _ _ E). specialize (Hj' _ _ E). rewrite lookup_take by lia. rewrite lookup_drop.
      destruct (lookup_lt_is_Some_2 l (N.to_nat from + j)) as [z Hz]; [lia|]. rewrite Hz. specialize (Hj _ _ Hz).
      replace (0 + N.of_nat (N.to_nat from + j)) with (from + N.of_nat j) in Hj by lia. congruence.
    + apply lookup_ge_None in E. symmetry. apply lookup_ge_None. rewrite take_length, drop_length. lia.
Qed.
Print Assumptions C109_map_page.

(** ** Fees *)
(** A trade with a simple pool: the amount received is computed with the fee shown for the pool, the protocol's part with the fee in the metadata, and
    the referral has its part exactly if it is on the list of referrals, at the rate shown there. *)
Theorem C109_fees w0 w c e pid q ti x to mn r skip c' y keys l fee :
  w_start w0 -> w_reach w0 w -> c = w_ex w -> ex_pool c pid = Some (PSimple q) -> v_pool_fee c pid = Some fee ->
  lists_keys keys (cf_referrals (ex_cfg c)) -> N.of_nat (length keys) < W64 -> v_list_referrals c keys None None = Some l ->
  ex_swap c e [ASwap pid ti (Some x) to mn] r skip = Some (c', y) ->
  y = x * (10000 - fee) * sp_reserve q to / (10000 * sp_reserve q ti + x * (10000 - fee)) /\
  exists q' f, ex_pool c' pid = Some (PSimple q') /\ sp_swap q ti x to mn f false = Some (q', y) /\
    admin_fee_bps f = md_admin_fee (v_metadata c) /\ exchange_id f = ex_self c /\
    (forall a rate, referral_info f = Some (a, rate) <-> r = Some a /\ (a, rate) ∈ l).
Proof.
  intros H0 Hre Ec Hp Hfee Hkeys Hb Hl H. assert (Hlen : length (sp_tokens q) = length (sp_amounts q)).
  { destruct (w_reach_ok _ _ (w_start_ok _ H0) Hre) as [Hwf _]. rewrite <- Ec in Hwf. pose proof (ex_wf_pool _ _ _ _ Hwf Hp) as Hpr. cbn [pl_reachable] in Hpr. apply sp_reachable_wf in Hpr. now apply wf_lengths. }
  clear H0 Hre Ec w0 w. unfold v_pool_fee in Hfee. rewrite Hp in Hfee. injection Hfee as <-. cbn [pl_get_fee].
  destruct (C109_map_page _ _ Hkeys Hb) as (l' & Hl' & _ & Hin & _). unfold v_list_referrals in Hl. rewrite Hl in Hl'. injection Hl' as <-.
  unfold ex_swap in H. grd H. bnd H r1 Hr1. destruct r1 as [c1 res]. bnd H y' Hy'. injection H as -> ->. unfold ex_execute_actions in Hr1. grd Hr1. grd Hr1. bnd Hr1 acc Hacc. bnd Hr1 u Hu. bnd Hr1 r2 Hr2. destruct r2 as [[c2 acc2] res2].
  bnd Hr1 c3 Hc3. injection Hr1 as -> ->. subst. unfold ex_execute in Hr2. bnd Hr2 u1 Hu1. bnd Hr2 u2 Hu2. cbn [list_lookup lookup is_swap mbind option_bind] in Hr2. bnd Hr2 r3 Hr3. destruct r3 as [[c4 acc4] res4].
  bnd Hr2 u3 Hu3. injection Hr2 as -> -> ->. cbn [ex_swap_loop ex_exec_action mbind option_bind] in Hr3.
  bnd Hr3 r4 Hr4. destruct r4 as [[c5 acc5] x5]. injection Hr3 as -> -> ->. bnd Hr4 acc6 Hacc6. bnd Hr4 r6 Hr6. destruct r6 as [c6 out]. bnd Hr4 acc7 Hacc7. injection Hr4 as -> -> ->.
  unfold ex_pool_swap in Hr6. bnd Hr6 c7 Hc7. apply ex_update_twap_frame in Hc7 as (tw & ->). change (ex_pool (ex_set_twap c tw) pid) with (ex_pool c pid) in Hr6. rewrite Hp in Hr6. cbn [mbind option_bind] in Hr6.
  bnd Hr6 r8 Hr8. destruct r8 as [p' o]. bnd Hr6 ii Hii. bnd Hr6 io Hio. bnd Hr6 v Hv. injection Hr6 as <- ->. cbn [pl_swap] in Hr8. bnd Hr8 r9 Hr9. destruct r9 as [q' o']. injection Hr8 as <- ->.
  apply ex_save_inv in Hc3 as [_ ->]. split.
  - apply sp_swap_inv in Hr9 as (_ & _ & i & j & uu & v' & Hi & Hj & _ & Hu' & Hv' & _ & _ & _ & _ & E & _). change FEE_DIVISOR with 10000 in E.
    unfold sp_reserve. rewrite !lookup_beside_position by exact Hlen. rewrite Hi, Hj. cbn [mbind option_bind]. rewrite Hu', Hv'. exact E.
  - eexists q', _. split; [|split; [exact Hr9|]].
    + change (ex_pool (ex_put ?c ?a ?b)) with (ex_pool c). rewrite ex_pool_put by (change (ex_pool (ex_put_volumes ?c ?a ?b) pid) with (ex_pool c pid); change (ex_pool (ex_set_twap c tw) pid) with (ex_pool c pid); eauto). now rewrite N.eqb_refl.
    + cbn [ex_fees_ref admin_fee_bps exchange_id referral_info]. split; [reflexivity|]. split; [reflexivity|]. intros a rate. rewrite Hin. unfold ex_referral. destruct r as [b|].
      * destruct (cf_referrals (ex_cfg c) !! b) as [fb|] eqn:Eb; split.
        -- intros [= <- <-]. auto.
        -- intros [[= <-] E]. congruence.
        -- discriminate.
        -- intros [[= <-] E]. congruence.
      * split; [discriminate|intros [[=] _]].
Qed.
Print Assumptions C109_fees.

(** ** Shares as tokens *)
(** The supply shown for the shares of a pool is the sum of the balances shown for its registered holders; only they have a balance; one share has the
    number of decimals shown. *)
Theorem C109_shares w0 w n p : w_start w0 -> w_reach w0 w -> n < 2 ^ 64 -> ex_pool (w_ex w) n = Some p ->
  let id := (":" +:+ pretty n)%string in
  exists holders : list AccountId, NoDup holders /\
    (forall a, a ∈ holders <-> v_mft_registered (w_ex w) id a = true) /\
    (forall a, v_mft_balance (w_ex w) id a = Some (pl_share_of p a)) /\
    (forall a, 0 < pl_share_of p a -> a ∈ holders) /\
    v_mft_supply (w_ex w) id = Some (lsum (pl_share_of p <$> holders)) /\
    v_mft_decimals (w_ex w) id = Some (pl_share_decimal p).
Proof.
  intros H0 Hre Hn Hp id. destruct (w_reach_ok _ _ (w_start_ok _ H0) Hre) as [Hwf _]. pose proof (ex_wf_pool _ _ _ _ Hwf Hp) as Hpr.
  unfold v_mft_registered, v_mft_balance, v_mft_supply, v_mft_decimals, ex_mft_balance, id. change (":" +:+ pretty n)%string with (String (Ascii.ascii_of_N 58) (pretty n)). rewrite (C62_share_id n Hn : mft_pool_of (String (Ascii.ascii_of_N 58) (pretty n)) = Some n). cbn [mbind option_bind]. rewrite Hp. cbn [mbind option_bind].
  set (sh := match p with PSimple q => sp_shares q | PStable q => st_shares q end).
  assert (Hs : pl_supply p = map_fold (fun _ s acc => s + acc) 0 sh).
  { destruct p as [q|q]; [apply C02_simple_supply_is_sum; exact Hpr|]. destruct Hpr as (m & _ & Hpr). exact (C02_stable_supply_is_sum _ _ Hpr). }
  assert (Ho : forall a, pl_share_of p a = default 0 (sh !! a)) by (intros a; destruct p; reflexivity).
  assert (Hr : forall a, pl_share_has_registered p a = true <-> is_Some (sh !! a)) by (intros a; destruct p; apply bool_decide_eq_true).
  exists (map_to_list sh).*1. split; [apply NoDup_fst_map_to_list|]. split; [|split; [|split; [|split; [|reflexivity]]]].
  - intros a. rewrite Hr, elem_of_list_fmap. split.
    + intros ([k x] & -> & Hx). apply elem_of_map_to_list in Hx. eauto.
    + intros [x Hx]. exists (a, x). split; [reflexivity|now apply elem_of_map_to_list].
  - intros a. now rewrite pl_share_balance_of.
  - intros a Ha. rewrite Ho in Ha. destruct (sh !! a) as [x|] eqn:E; [|cbn in Ha; lia]. apply elem_of_list_fmap. exists (a, x). split; [reflexivity|now apply elem_of_map_to_list].
  - f_equal. rewrite Hs. unfold map_fold. cbn. assert (G : Forall (fun kx => pl_share_of p kx.1 = kx.2) (map_to_list sh)).
    { apply Forall_forall. intros [k x] Hx. apply elem_of_map_to_list in Hx. cbn. now rewrite Ho, Hx. }
    clear - G. induction G as [|[k x] r Hx Hr IH]; [reflexivity|]. cbn in *. rewrite IH, Hx. reflexivity.
Qed.
Print Assumptions C109_shares.

(** The NEAR shown for an account is the total of its storage balance, and covers the part shown as available. The price shown for shares is that of
    C90, at the rates of the time; there is none for simple pools. *)
Theorem C109_worth c now pid x :
  (forall a, v_account_near c a = fst <$> v_storage_balance c a) /\
  (forall a n av, v_storage_balance c a = Some (n, av) -> av <= n) /\
  (v_pool_share_price c now pid = Some x -> exists q, ex_pool c pid = Some (PStable q) /\
    match st_kind q with
    | KStable => price_of_share (st_supply q) (total (st_c q)) x
    | _ => exists rates D, st_get_rates q (pl_env (ex_rates c) now q) = Some rates /\ st_D q now rates (st_c q) = Some D /\ price_of_share (st_supply q) D x
    end).
Proof.
  split_and!.
  - intros a. unfold v_account_near, v_storage_balance. now destruct (ex_account c a).
  - intros a n av H. unfold v_storage_balance in H. bnd H acc Hacc. injection H as <- <-. unfold ac_storage_available. destruct (_ <? _); lia.
  - intros H. unfold v_pool_share_price in H. bnd H p Hp. destruct p as [|q]; [discriminate H|]. exists q. split; [exact Hp|].
    destruct (st_kind q) eqn:Hk; [now apply C90_price in H|..];
      (apply C90_rated_price in H as (rates & D & H1 & H2 & H3); [|now rewrite Hk]); exists rates, D; split_and!; auto; unfold pl_env in H2; rewrite Hk in H2; exact H2.
Qed.
Print Assumptions C109_worth.

(** The owner names a guardian and two referrals and freezes a token; the views show it, the guardian stops the exchange and may not start it, the owner
    may; bob's trade pays the fees shown. *)
Definition shown_events : list Event :=
  [ EvCall (env 109 "own" 1) (CExtendGuardians ["gd"]);
    EvCall (env 110 "own" 1) (CInsertReferral "rf" 2000);
    EvCall (env 111 "own" 1) (CInsertReferral "sg" 500);
    EvCall (env 112 "gd" 1) (CExtendFrozen ["z"]) ].
Definition w_shown : World := default w_live (w_run w_live shown_events).
Lemma w_shown_runs : w_run w_live shown_events = Some w_shown.
Proof. apply run_default. vm_compute. reflexivity. Qed.
Lemma w_shown_reach : w_reach w_fresh w_shown.
Proof. eapply w_run_reach; [eapply w_run_reach; [apply w_reach_refl|exact w_live_runs]|exact w_shown_runs]. Qed.
Lemma w_shown_referrals : cf_referrals (ex_cfg (w_ex w_shown)) = <["sg" := 500]> {["rf" := 2000]}.
Proof. vm_compute. reflexivity. Qed.
Lemma w_shown_keys : lists_keys ["sg"; "rf"] (cf_referrals (ex_cfg (w_ex w_shown))).
Proof.
  rewrite w_shown_referrals. split; [apply (bool_decide_unpack _); vm_compute; exact I|]. intros k. rewrite !elem_of_cons, elem_of_nil.
  destruct (decide ("sg" = k)) as [<-|N1]; [rewrite lookup_insert; split; [eauto|auto]|]. rewrite lookup_insert_ne by done.
  destruct (decide ("rf" = k)) as [<-|N2]; [rewrite lookup_singleton; split; [eauto|auto]|]. rewrite lookup_singleton_ne by done.
  split; [intros [H|[H|[]]]; congruence|intros [? [=]]].
Qed.
Example C109_ex :
  v_guardians (w_ex w_shown) = ["gd"] /\ v_owner (w_ex w_shown) = "own" /\ md_running (v_metadata (w_ex w_shown)) = true /\ md_admin_fee (v_metadata (w_ex w_shown)) = 25 /\
  v_frozen_tokens (w_ex w_shown) = ["z"] /\ v_user_tokens (w_ex w_shown) "bo" = ["a"] /\
  v_list_referrals (w_ex w_shown) ["sg"; "rf"] None None = Some [("sg", 500); ("rf", 2000)] /\
  v_list_referrals (w_ex w_shown) ["sg"; "rf"] (Some 1) (Some 5) = Some [("rf", 2000)] /\
  v_pool_fee (w_ex w_shown) 0 = Some 30 /\ v_account_near (w_ex w_shown) "bo" = Some (10 ^ 24) /\ v_pool_share_price (w_ex w_rich) 118 1 = Some 100000866 /\ v_mft_decimals (w_ex w_shown) ":0" = Some 24 /\
  v_mft_registered (w_ex w_shown) ":0" "al" = true /\ v_mft_registered (w_ex w_shown) ":0" "bo" = false /\
  snd <$> ex_swap (w_ex w_shown) (env 113 "bo" 0) [ASwap 0 "a" (Some 5000) "b" 0] (Some "rf") false = Some (5000 * 9970 * 800000 / (10000 * 900000 + 5000 * 9970)).
Proof. split_and!; vm_compute; reflexivity. Qed.
