(** * C106: rates, prices, limits and staked shares as shown by the views *)
From Verif Require Import Base BaseLemmas SimplePool SpecSimple StableMath StablePool SpecStable Rates Account Pool Exchange SpecExchange
  StablePoolProofs ExchangeProofs ExchangeInv ExchangeEffect ExchangeFrames SpecWorld WorldProofs SpecHistory PropWorld Views ViewProofs PropViews Listing RateViews ExExample PropCap PropChosen.

Lemma map_each_Some {A B} (f : A -> option B) m r : map_each f m = Some r <-> (forall t, r !! t = m !! t ≫= f) /\ forall t x, m !! t = Some x -> is_Some (f x).
Proof.
  unfold map_each. case_decide as D; split.
  - intros [= <-]. split; [intros t; apply lookup_omap|exact D].
  - intros [E _]. f_equal. apply map_eq. intros t. now rewrite E, lookup_omap.
  - discriminate.
  - intros [_ E]. now elim D.
Qed.

Lemma ensure_iff b : ensure b = Some tt <-> b = true.
Proof. split; [apply ensure_Some|apply ensure_intro]. Qed.

(** ** Rated tokens *)
(** Shown is every registered rate, with the time of its last update and whether that is at most 24 hours ago. *)
Theorem C106_rated c now m t :
  v_rated_tokens c now = Some m ->
  match rs_rates (ex_rates c) !! t with
  | Some r => exists i, m !! t = Some i /\ ri_rate i = rt_rate r /\ ri_at i = rt_at r /\ (ri_valid i = true <-> now <= rt_at r + 24 * 3600 * 10 ^ 9)
  | None => m !! t = None
  end.
Proof.
  intros H. apply map_each_Some in H as [E F]. rewrite E. destruct (rs_rates (ex_rates c) !! t) as [r|] eqn:Hr; [|reflexivity]. cbn [mbind option_bind].
  destruct (F t r Hr) as [i Hi]. exists i. split; [exact Hi|]. unfold rated_info in Hi. bnd Hi x Hx. injection Hi as <-. cbn [ri_rate ri_at ri_valid]. split; [done|]. split; [done|].
  apply cadd_Some in Hx as [-> _]. change RATE_EXPIRE_TS with (24 * 3600 * 10 ^ 9). apply N.leb_le.
Qed.
Print Assumptions C106_rated.
(** They are shown as long as no update lies within 24 hours of the end of the u64 nanoseconds. *)
Theorem C106_rated_shown c now : (forall t r, rs_rates (ex_rates c) !! t = Some r -> rt_at r + 24 * 3600 * 10 ^ 9 < 2 ^ 64) -> exists m, v_rated_tokens c now = Some m.
Proof.
  intros H. unfold v_rated_tokens, map_each. case_decide as D; [eauto|]. exfalso. apply D. intros t r Hr. unfold rated_info. rewrite cadd_intro; [eauto|].
  change RATE_EXPIRE_TS with (24 * 3600 * 10 ^ 9). specialize (H t r Hr). change W64 with (2 ^ 64). lia.
Qed.
Print Assumptions C106_rated_shown.
(** The rates shown, and 1 for tokens not shown, are those the pools use (C95: quotes and trades). *)
Theorem C106_rated_used c now m ts rs :
  v_rated_tokens c now = Some m ->
  recorded c KRated ts rs <-> Forall2 (fun t x => x = match m !! t with Some i => ri_rate i | None => 10 ^ 24 end) ts rs.
Proof.
  intros H. assert (K : forall t, match rs_rates (ex_rates c) !! t with Some r => rt_rate r | None => 10 ^ 24 end = match m !! t with Some i => ri_rate i | None => 10 ^ 24 end).
  { intros t. pose proof (C106_rated c now m t H) as E. destruct (rs_rates (ex_rates c) !! t) as [r|]; [destruct E as (i & -> & -> & _)|rewrite E]; reflexivity. }
  unfold recorded. split; intros HF; (eapply Forall2_impl; [exact HF|]); cbn beta; intros t x Hx; rewrite Hx; [|symmetry]; apply K.
Qed.
Print Assumptions C106_rated_used.
(** What a pool requires before it uses the rates is that those shown for its tokens are shown as valid. *)
Theorem C106_rated_valid c now q m : v_rated_tokens c now = Some m -> st_kind q = KRated ->
  st_assert_rates_valid q (pl_env (ex_rates c) now q) = Some tt <-> forall t i, t ∈ st_tokens q -> m !! t = Some i -> ri_valid i = true.
Proof.
  intros Hm Hk. unfold st_assert_rates_valid, pl_env. rewrite Hk. cbn [rs_pool_env pe_valid]. rewrite ensure_iff, forallb_forall.
  assert (K : forall t, match rs_rates (ex_rates c) !! t with Some r => rate_are_actual now r | None => true end = true <-> forall i, m !! t = Some i -> ri_valid i = true).
  { intros t. apply map_each_Some in Hm as [E F]. rewrite E. destruct (rs_rates (ex_rates c) !! t) as [r|] eqn:Hr; cbn [mbind option_bind]; [|split; [discriminate|done]].
    destruct (F t r Hr) as [i Hi]. rewrite Hi. assert (Ei : ri_valid i = rate_are_actual now r).
    { unfold rated_info in Hi. unfold rate_are_actual. destruct (cadd W64 (rt_at r) RATE_EXPIRE_TS); [|discriminate Hi]. injection Hi as <-. reflexivity. }
    rewrite <- Ei. split; [intros Hv j [= <-]; exact Hv|intros Hv; now apply Hv]. }
  split.
  - intros H t i Ht. apply K, H. now apply elem_of_list_In.
  - intros H t Ht. apply K. intros i. apply H. now apply elem_of_list_In.
Qed.
Print Assumptions C106_rated_valid.

(** ** Trades and withdrawals the prices are too old for *)
Lemma refused c now pid q : ex_pool c pid = Some (PStable q) -> st_assert_rates_valid q (pl_env (ex_rates c) now q) = None ->
  (forall ti x to, v_get_return c now pid ti x to = None) /\ (forall am, v_predict_remove_by_tokens c now pid am = None) /\
  (forall e ti x to mn r skip, e_now e = now -> ex_swap c e [ASwap pid ti (Some x) to mn] r skip = None).
Proof.
  intros Hp Hv.
  assert (H1 : forall ti x to, v_get_return c now pid ti x to = None).
  { intros ti x to. unfold v_get_return. rewrite Hp. cbn [mbind option_bind pl_swap]. destruct (st_swap _ _ _ _ _ _ _ _) as [[q' o]|] eqn:E; [|reflexivity].
    apply st_swap_inv in E as (? & ? & ? & ? & ? & ? & ? & ? & ? & ? & ? & ? & _ & _ & _ & _ & E & _). congruence. }
  split; [exact H1|]. split.
  - intros am. unfold v_predict_remove_by_tokens. rewrite Hp. cbn [mbind option_bind pl_remove_by_tokens]. destruct (st_remove_by_tokens _ _ _ _ _ _ _) as [[q' o]|] eqn:E; [|reflexivity].
    unfold st_remove_by_tokens in E. grd E. bnd E u1 Hu1. bnd E u2 Hu2. grd E. bnd E u4 Hu4. destruct u4. congruence.
  - intros e ti x to mn r skip <-. destruct (ex_swap _ _ _ _ _) as [[c2 y]|] eqn:E; [|reflexivity]. apply C57_get_return in E. now rewrite H1 in E.
Qed.
(** So with a rate not shown as valid, its pools are not traded with and pay nothing by amounts. *)
Theorem C106_rated_refused c now m pid q t i :
  v_rated_tokens c now = Some m -> ex_pool c pid = Some (PStable q) -> st_kind q = KRated -> t ∈ st_tokens q -> m !! t = Some i -> ri_valid i = false ->
  (forall ti x to, v_get_return c now pid ti x to = None) /\ (forall am, v_predict_remove_by_tokens c now pid am = None) /\
  (forall e ti x to mn r skip, e_now e = now -> ex_swap c e [ASwap pid ti (Some x) to mn] r skip = None).
Proof.
  intros Hm Hp Hk Ht Hi Hf. apply (refused c now pid q Hp). destruct (st_assert_rates_valid _ _) as [[]|] eqn:E; [|reflexivity].
  pose proof (proj1 (C106_rated_valid c now q m Hm Hk) E t i Ht Hi). congruence.
Qed.
Print Assumptions C106_rated_refused.

(** ** Degen tokens *)
(** Shown is every registered token with its price, the time of its last update and whether that is recent enough for its oracle ... *)
Theorem C106_degen c now m t :
  v_degen_tokens c now = Some m ->
  match rs_degens (ex_rates c) !! t with
  | Some d => exists i life, m !! t = Some i /\ dg_info d = Some (di_price i, di_at i) /\ di_src i = dg_src d /\
      match dg_src d with DPriceOracle _ => poc_expire <$> rs_price_cfg (ex_rates c) | DPyth _ => pyc_expire <$> rs_pyth_cfg (ex_rates c) end = Some life /\
      (di_valid i = true <-> now <= di_at i + life)
  | None => m !! t = None
  end.
Proof.
  intros H. apply map_each_Some in H as [E F]. rewrite E. destruct (rs_degens (ex_rates c) !! t) as [d|] eqn:Hd; [|reflexivity]. cbn [mbind option_bind].
  destruct (F t d Hd) as [i Hi]. unfold degen_info in Hi. bnd Hi pa Hpa. destruct pa as [price at_]. bnd Hi life Hl. bnd Hi x Hx. pose proof Hi as Hi'. injection Hi' as <-.
  exists (mkDegenInfo (dg_src d) price at_ (now <=? x)), life. split.
  - unfold degen_info. rewrite Hpa. cbn [mbind option_bind]. rewrite Hl. cbn [mbind option_bind]. rewrite Hx. reflexivity.
  - split; [exact Hpa|]. split; [reflexivity|]. split; [exact Hl|]. cbn [di_valid di_at]. apply cadd_Some in Hx as [-> _]. apply N.leb_le.
Qed.
Print Assumptions C106_degen.
(** ... but none of them while one registered token has no price yet. *)
Theorem C106_degen_none_shown c now t d : rs_degens (ex_rates c) !! t = Some d -> dg_info d = None -> v_degen_tokens c now = None.
Proof.
  intros Hd Hi. destruct (v_degen_tokens c now) as [m|] eqn:E; [|reflexivity]. pose proof (C106_degen c now m t E) as K. rewrite Hd in K. destruct K as (i & life & _ & K & _). congruence.
Qed.
Print Assumptions C106_degen_none_shown.
(** The list for chosen tokens shows the same, without regard to other tokens. *)
Theorem C106_degen_chosen c now m ts l : v_degen_tokens c now = Some m -> v_batch_degen_tokens c now ts = Some l -> l = map (fun t => (t, m !! t)) ts.
Proof.
  intros H Hl. apply map_each_Some in H as [E F]. apply mapM__Forall2 in Hl. induction Hl as [|t x ts l Hx _ IH]; cbn [map]; [reflexivity|]. rewrite IH. f_equal. clear IH.
  rewrite E. destruct (rs_degens (ex_rates c) !! t) as [d|]; cbn [mbind option_bind]; [|now injection Hx as <-]. bnd Hx i Hi. injection Hx as <-. now rewrite Hi.
Qed.
Print Assumptions C106_degen_chosen.
(** The prices shown are those the pools use. *)
Theorem C106_degen_used c now ts l rs :
  v_batch_degen_tokens c now ts = Some l -> recorded c KDegen ts rs -> l = zip_with (fun t x => (t, x)) ts (snd <$> l) /\ Forall2 (fun x '(_, i) => exists j, i = Some j /\ di_price j = x) rs l.
Proof.
  intros Hl Hr. apply mapM__Forall2 in Hl. revert rs Hr. induction Hl as [|t x ts l Hx _ IH]; intros rs Hr.
  - inversion Hr; subst. split; [reflexivity|constructor].
  - inversion Hr as [|? y ? rs' Hy Hr']; subst. destruct (IH rs' Hr') as [E1 E2]. clear IH. destruct Hy as (d & Hd & Hi). rewrite Hd in Hx. bnd Hx i Hii. injection Hx as <-. split.
    + cbn [fmap list_fmap zip_with snd]. f_equal. exact E1.
    + constructor; [|exact E2]. exists i. split; [reflexivity|]. unfold degen_info in Hii. bnd Hii pa Hpa. destruct pa as [price at_]. bnd Hii life Hlf. bnd Hii z Hz. injection Hii as <-.
      rewrite Hpa in Hi. now injection Hi as <-.
Qed.
Print Assumptions C106_degen_used.
(** What a pool requires before it uses the prices is that all its tokens are shown, as valid. *)
Theorem C106_degen_valid c now q l : v_batch_degen_tokens c now (st_tokens q) = Some l -> st_kind q = KDegen ->
  st_assert_rates_valid q (pl_env (ex_rates c) now q) = Some tt <-> Forall (fun ti => exists i, snd ti = Some i /\ di_valid i = true) l.
Proof.
  intros Hl Hk. unfold st_assert_rates_valid, pl_env. rewrite Hk. cbn [rs_pool_env pe_valid]. rewrite ensure_iff. apply mapM__Forall2 in Hl. induction Hl as [|t x ts l Hx _ IH]; cbn [forallb].
  - split; [constructor|reflexivity].
  - rewrite andb_true_iff, IH, Forall_cons. clear IH. apply and_iff_compat_r. destruct (rs_degens (ex_rates c) !! t) as [d|]; [|injection Hx as <-; split; [discriminate|intros (i & [=] & _)]].
    bnd Hx i Hi. injection Hx as <-. cbn [snd]. assert (Ei : di_valid i = degen_is_price_valid (ex_rates c) now d).
    { unfold degen_info in Hi. unfold degen_is_price_valid. destruct (dg_info d) as [[price at_]|]; [|discriminate Hi]. cbn [mbind option_bind] in Hi. destruct (degen_expire (ex_rates c) d) as [life|]; [|discriminate Hi].
      cbn [mbind option_bind] in Hi. destruct (cadd W64 at_ life); [|discriminate Hi]. injection Hi as <-. reflexivity. }
    rewrite <- Ei. split; [intros Hv; eauto|intros (j & [= <-] & Hv); exact Hv].
Qed.
Print Assumptions C106_degen_valid.
(** So a pool with a token not shown, or not shown as valid, is not traded with, shows no value and pays nothing by amounts. *)
Theorem C106_degen_refused c now l pid q t i :
  v_batch_degen_tokens c now (st_tokens q) = Some l -> ex_pool c pid = Some (PStable q) -> st_kind q = KDegen -> (t, i) ∈ l ->
  match i with Some j => di_valid j = false | None => True end ->
  (forall ti x to, v_get_return c now pid ti x to = None) /\ (forall am, v_predict_remove_by_tokens c now pid am = None) /\ v_degen_tvl c now pid = None /\
  (forall e ti x to mn r skip, e_now e = now -> ex_swap c e [ASwap pid ti (Some x) to mn] r skip = None).
Proof.
  intros Hl Hp Hk Hti Hf. assert (E : st_assert_rates_valid q (pl_env (ex_rates c) now q) = None).
  { destruct (st_assert_rates_valid _ _) as [[]|] eqn:E; [|reflexivity]. exfalso.
    pose proof (proj1 (C106_degen_valid c now q l Hl Hk) E) as K. rewrite Forall_forall in K. destruct (K _ Hti) as (j & Ej & Hj). cbn [snd] in Ej. subst i. congruence. }
  destruct (refused c now pid q Hp E) as (A & B & C). split; [exact A|]. split; [exact B|]. split; [|exact C].
  unfold v_degen_tvl. rewrite Hp. cbn [mbind option_bind]. rewrite Hk, E. reflexivity.
Qed.
Print Assumptions C106_degen_refused.

(** ** The value of a degen pool *)
(** It is shown only at prices that are recent enough, and then is what the balances are worth in dollars, at most one dollar
    per token too low. *)
Theorem C106_value c now pid q x :
  ex_wf now c -> ex_pool c pid = Some (PStable q) -> v_degen_tvl c now pid = Some x ->
  st_kind q = KDegen /\ x * 10 ^ 48 <= worth c (st_tokens q) (st_c q) /\
  worth c (st_tokens q) (st_c q) + N.of_nat (length (st_tokens q)) <= (x + N.of_nat (length (st_tokens q))) * 10 ^ 48.
Proof.
  intros Hwf Hp H. unfold v_degen_tvl in H. rewrite Hp in H. cbn [mbind option_bind] in H. destruct (st_kind q) eqn:Hk; try discriminate H. split; [reflexivity|].
  bnd H u Hu. exact (C89_value now c pid q x Hwf Hp Hk H).
Qed.
Print Assumptions C106_value.

(** ** Staked shares *)
Theorem C106_shadow c a pid :
  match v_shadow_records c a !! pid with Some r => farm_at c pid a = sh_farm r /\ burrow_at c pid a = sh_burrow r | None => farm_at c pid a = 0 /\ burrow_at c pid a = 0 end.
Proof.
  unfold v_shadow_records, farm_at, burrow_at, shadow_at. destruct (ex_account c a) as [acc|]; [|rewrite lookup_empty; auto]. destruct (ac_shadow acc !! pid); cbn; auto.
Qed.
Print Assumptions C106_shadow.
(** The limit shown is the one applied: after liquidity is added, the value shown is within the limit shown. *)
Theorem C106_limit c e pid am mn c' ps lim x :
  ex_call c e (CAddStableLiquidity pid am mn) = Some (c', ps) -> v_pool_limit c pid = Some lim ->
  v_pool_limit c' pid = Some lim /\ (v_degen_tvl c' (e_now e) pid = Some x -> x <= lim).
Proof.
  intros H Hl. cbn [ex_call] in H. apply keep2_inv in H as (sh & H).
  apply ex_add_stable_liquidity_inv in H as (tw & p & p' & acc & acc' & _ & _ & Hp & _ & Hadd & Ht & _ & _ & _ & _ & ->).
  unfold v_pool_limit in *. split; [exact Hl|]. intros Hx. rewrite Hl in Ht. unfold v_degen_tvl in Hx.
  match type of Hx with (mbind _ (ex_pool ?k pid)) = _ => change (ex_pool k pid) with (ex_pool (ex_put_pool c pid p') pid) in Hx end.
  rewrite ex_pool_put in Hx by eauto. rewrite N.eqb_refl in Hx. cbn [mbind option_bind] in Hx.
  destruct p' as [s|q]; [discriminate|]. cbn [pl_assert_tvl] in Ht. destruct (st_kind q) eqn:Hk; try discriminate. bnd Hx u Hu.
  bnd Ht y Hy. apply ensure_Some, N.leb_le in Ht. unfold pl_env in *. rewrite ?Hk in *.
  match type of Hx with _ = Some ?a => match type of Hy with _ = Some ?b => assert (a = b) by (apply Some_inj; rewrite <- Hx, <- Hy; reflexivity) end end.
  now subst.
Qed.
Print Assumptions C106_limit.
(** batch_views shows what the three views show. *)
Theorem C106_batch c now a pids s l h :
  v_batch c now a pids = Some (s, l, h) ->
  s = v_shadow_records c <$> a /\
  match pids, l with Some p, Some m => v_lpt_assets c now p ∅ = Some m | None, None => True | _, _ => False end /\
  match a, pids, h with Some a, Some p, Some x => v_get_pool_shares_batch c p a = Some x | Some _, Some _, None => False | _, _, x => x = None end.
Proof.
  unfold v_batch. intros H. bnd H as_ Has. bnd H sh Hsh. injection H as <- <- <-. split; [reflexivity|]. split.
  - destruct pids as [p|]; [bnd Has m Hm; now injection Has as <-|now injection Has as <-].
  - destruct a as [a|], pids as [p|]; [bnd Hsh x Hx; now injection Hsh as <-|now injection Hsh as <-..].
Qed.
Print Assumptions C106_batch.

(** ** Example: the degen pool of C89, at its prices and when they have expired *)
Definition w_named : World := default w_cap (w_run w_cap [EvCall (env 111 "own" 1) (CRateAdmin (RegisterDegen "z" (DPyth "pz")))]).
Example C106_ex : w_reach w_fresh w_cap /\
  v_degen_tvl (w_ex w_cap) 112 0 = Some 3000 /\ v_pool_limit (w_ex w_cap) 0 = Some 3500 /\
  v_batch_degen_tokens (w_ex w_cap) 112 ["u"; "z"] = Some [("u"%string, Some (mkDegenInfo (DPyth "pu") (10 ^ 24) 107 true)); ("z"%string, None)] /\
  (v_degen_tokens (w_ex w_cap) 112 ≫= (.!! "v"%string)) = Some (mkDegenInfo (DPyth "pv") (2 * 10 ^ 24) 107 true) /\
  (v_degen_tokens (w_ex w_cap) (107 + 3600 * 10 ^ 9 + 1) ≫= (.!! "v"%string)) = Some (mkDegenInfo (DPyth "pv") (2 * 10 ^ 24) 107 false) /\
  v_degen_tvl (w_ex w_cap) (107 + 3600 * 10 ^ 9 + 1) 0 = None /\
  done_ (v_degen_tokens (w_ex w_named) 112) = false.
Proof.
  split; [|repeat split; vm_compute; reflexivity]. eapply w_run_reach; [apply w_reach_refl|]. exact (proj1 C89_ex).
Qed.
