(** * C64, C65: users can take their property out *)
From Verif Require Import Base BaseLemmas SimplePool SimplePoolProofs SpecSimple SimplePoolInv StableMath StablePool
  SpecStable StablePoolProofs StablePoolInv Rates Echo Twap SpecTwap PropTwap.
From Verif Require Import PropSimple PropStable.
From Verif Require Import Account Pool Exchange SpecExchange AccountProofs PoolFacts
  ExchangeProofs ExchangeInv ExchangeEffect ExchangeFrames SpecWorld WorldProofs ExExample PropWorld SpecSwap SpecHistory HistoryProofs
  TwapInv SpecRecords PropRecords SpecExit ExitProofs.

(** ** C64: deposits and returned transfers *)
(** In every execution in which the token behaves as a standard token: an account whose NEAR covers its
    storage can withdraw any part of what it holds, as long as the exchange is running and the token is
    not frozen.  The transfer that leaves the exchange can be executed. *)
Theorem C64_withdraw t w0 w e a acc x skip :
  w_start w0 -> standard t w0 w -> ready w e a -> ~ frozen w t ->
  ex_account (w_ex w) a = Some acc -> covered_at (w_ex w) a -> ac_legacy acc !! t = None ->
  0 < x <= held_by (w_ex w) a t ->
  exists w2, pays w e (CWithdraw t x false skip) a t x w2 /\ held_by (w_ex w2) a t + x = held_by (w_ex w) a t.
Proof.
  intros H0 Hstd Hr Hfr Hacc Hcov Hleg Hx. unfold covered_at in Hcov. rewrite Hacc in Hcov.
  pose proof (held_le_hold _ _ _ a H0 Hstd) as Hh. assert (Hx2 : 0 < x <= ac_held acc t) by now rewrite <- (held_by_account _ _ _ t Hacc).
  destruct (ac_withdraw_new acc t x Hleg Hx2) as (acc' & Hw & Hu & Hn).
  assert (Hok : w_ok w) by (eapply w_backed_sound; [exact H0|apply Hstd]).
  pose proof (ex_wf_account _ _ _ _ (proj1 Hok) Hacc) as Hdj.
  assert (Hc : ex_call (w_ex w) e (CWithdraw t x false skip) = Some (ex_put (w_ex w) a acc', [ex_send (w_ex w) a t x skip])).
  { cbn [ex_call]. destruct Hr as (Ha & Hy & Hself & _ & Hrun). subst a. unfold ex_withdraw. rewrite one_yocto_intro by done. cbn [mbind option_bind]. rewrite running_intro by done. cbn [mbind option_bind].
    rewrite no_frozen_intro. 2: { intros u Hu'. apply elem_of_list_singleton in Hu' as ->. exact Hfr. }
    cbn [mbind option_bind]. rewrite Hacc. cbn [mbind option_bind]. rewrite (proj2 (N.eqb_neq x 0)) by lia. cbn [mbind option_bind].
    rewrite ensure_intro by now apply N.ltb_lt. cbn [mbind option_bind]. rewrite Hw. cbn [mbind option_bind]. rewrite ex_save_intro by congruence. reflexivity. }
  assert (Hle : x <= w_hold w t) by lia. destruct (ex_send_pays _ _ _ _ _ _ _ _ Hr Hle Hc) as (w2 & Hp & E). exists w2. split; [done|]. rewrite E, held_by_put, String.eqb_refl.
  rewrite (held_by_account _ _ _ _ Hacc). apply ac_withdraw_spec in Hw as (_ & Hw & _); [|done]. specialize (Hw t). now rewrite only_same in Hw.
Qed.
Print Assumptions C64_withdraw.
(** Everything at once, with the entry removed: also for old-style entries. *)
Theorem C64_withdraw_whole t w0 w e a acc skip :
  w_start w0 -> standard t w0 w -> ready w e a -> ~ frozen w t ->
  ex_account (w_ex w) a = Some acc -> covered_at (w_ex w) a -> 0 < held_by (w_ex w) a t ->
  exists w2, pays w e (CWithdraw t 0 true skip) a t (held_by (w_ex w) a t) w2 /\ held_by (w_ex w2) a t = 0 /\ covered_at (w_ex w2) a.
Proof.
  intros H0 Hstd Hr Hfr Hacc Hcov Hx. unfold covered_at in Hcov. rewrite Hacc in Hcov.
  pose proof (held_le_hold _ _ _ a H0 Hstd) as Hh. rewrite (held_by_account _ _ _ _ Hacc) in *.
  assert (Hok : w_ok w) by (eapply w_backed_sound; [exact H0|apply Hstd]).
  pose proof (ex_wf_account _ _ _ _ (proj1 Hok) Hacc) as Hdj.
  destruct (ac_withdraw_whole acc t Hdj Hx) as (a1 & a2 & Hw & Hun & Hu & Hn).
  assert (Hc : ex_call (w_ex w) e (CWithdraw t 0 true skip) = Some (ex_put (w_ex w) a a2, [ex_send (w_ex w) a t (ac_held acc t) skip])).
  { cbn [ex_call]. destruct Hr as (Ha & Hy & Hself & _ & Hrun). subst a. unfold ex_withdraw. rewrite one_yocto_intro by done. cbn [mbind option_bind]. rewrite running_intro by done. cbn [mbind option_bind].
    rewrite no_frozen_intro. 2: { intros u Hu'. apply elem_of_list_singleton in Hu' as ->. exact Hfr. }
    cbn [mbind option_bind]. rewrite Hacc. cbn [mbind option_bind N.eqb].
    assert (E : ac_get_balance acc t = Some (ac_held acc t)). { unfold ac_held in *. destruct (ac_get_balance acc t); [done|]. cbn in Hx. lia. }
    rewrite E. cbn [mbind option_bind].
    rewrite ensure_intro by now apply N.ltb_lt. cbn [mbind option_bind]. rewrite Hw. cbn [mbind option_bind]. rewrite Hun. cbn [mbind option_bind].
    rewrite ex_save_intro by lia. reflexivity. }
  assert (Hle : (ac_held acc t) <= w_hold w t) by lia. destruct (ex_send_pays _ _ _ _ _ _ _ _ Hr Hle Hc) as (w2 & Hp & E). exists w2. split; [done|]. rewrite E. split.
  - rewrite held_by_put, String.eqb_refl. pose proof (ac_withdraw_spec _ _ _ _ Hdj Hw) as ((Hd1 & _) & Hw' & _). specialize (Hw' t). rewrite only_same in Hw'.
    apply ac_unregister_spec in Hun as (_ & _ & Hun & _); [|done]. rewrite Hun. lia.
  - unfold covered_at. rewrite ex_account_put, String.eqb_refl. lia.
Qed.
Print Assumptions C64_withdraw_whole.
(** A recorded lost-and-found amount can be claimed. *)
Theorem C64_claim t w0 w e a :
  w_start w0 -> standard t w0 w -> ready w e a -> ~ frozen w t -> 0 < lost_of (w_ex w) a t ->
  exists w2, pays w e (CClaimLostfound t) a t (lost_of (w_ex w) a t) w2 /\ lost_of (w_ex w2) a t = 0.
Proof.
  intros H0 Hstd Hr Hfr Hx.
  pose proof (C01_solvent_partial _ _ _ H0 (proj1 Hstd) (proj2 Hstd)) as Hs. pose proof (lost_le_total (w_ex w) a t) as Hl. unfold owed in Hs.
  set (m := (lost_remove (ex_lost (w_ex w)) a t).1).
  assert (E : lost_remove (ex_lost (w_ex w)) a t = (m, lost_of (w_ex w) a t)).
  { unfold m, lost_remove, lost_of. cbv zeta. cbn [fst]. destruct (ex_lost (w_ex w) !! a); cbn [default from_option Datatypes.id]; [done|]. now rewrite lookup_empty. }
  assert (Hc : ex_call (w_ex w) e (CClaimLostfound t) = Some (ex_set_lost (w_ex w) m, [ex_send (w_ex w) a t (lost_of (w_ex w) a t) None])).
  { cbn [ex_call]. destruct Hr as (Ha & Hy & Hself & _ & Hrun). subst a. unfold ex_claim_lostfound. rewrite one_yocto_intro by done. cbn [mbind option_bind]. rewrite running_intro by done. cbn [mbind option_bind].
    rewrite no_frozen_intro. 2: { intros u Hu'. apply elem_of_list_singleton in Hu' as ->. exact Hfr. }
    cbn [mbind option_bind]. rewrite E. rewrite ensure_intro by now apply N.ltb_lt. reflexivity. }
  assert (Hle : (lost_of (w_ex w) a t) <= w_hold w t) by lia. destruct (ex_send_pays _ _ _ _ _ _ _ _ Hr Hle Hc) as (w2 & Hp & E2). exists w2. split; [done|].
  pose proof (ready_call _ _ _ _ _ _ Hr Hc) as Hst. apply C25_claim in Hst as (p & _ & _ & _ & Hlost & _). specialize (Hlost a t).
  destruct Hr as (Ea & _). rewrite Ea, !String.eqb_refl in Hlost. cbn [andb] in Hlost. rewrite E2.
  destruct (w_queue_ex w (ex_set_lost (w_ex w) m) (w_hold w) (w_flights w) [ex_send (w_ex w) a t (lost_of (w_ex w) a t) None] (e_now e)) as (Eq & _). rewrite Eq in Hlost. exact Hlost.
Qed.
Print Assumptions C64_claim.

(** ** C65: pool shares *)
(** In every execution in which the pool's tokens behave as standard tokens: shares that are staked
    nowhere can be redeemed without minimums for their part of the pool, if the pool keeps its least
    balances (simple pools have none) and the account has room for the tokens. *)
Theorem C65_redeem w0 w e a pid p s :
  w_start w0 -> records_sound w0 -> w_reach w0 w -> (forall t, t ∈ pl_tokens p -> standard t w0 w) ->
  ready w e a -> e_now e < 2 ^ 32 * 10 ^ 9 -> ex_pool (w_ex w) pid = Some p -> (forall t, t ∈ pl_tokens p -> ~ frozen w t) ->
  room_for (w_ex w) a (pl_tokens p) -> 0 < s <= free_shares (w_ex w) pid a ->
  (is_Some (ex_twap (w_ex w) !! pid) -> one_share p < pl_supply p -> leaves_enough p (one_share p)) ->
  leaves_enough p s ->
  exists w1, w_step w (EvCall e (CRemoveLiquidity pid s (repeat 0 (length (pl_tokens p))))) = Some w1 /\
    w_hold w1 = w_hold w /\ w_flights w1 = w_flights w /\
    shares_at (w_ex w1) pid a + s = shares_at (w_ex w) pid a /\
    (forall t, held_by (w_ex w1) a t = held_by (w_ex w) a t + beside t (pl_tokens p) (worth p s)).
Proof.
  intros H0 Hrec Hreach Hstd Hr HW Hp Hfr Hroom Hs Hobs Hle.
  destruct (ex_remove_intro w0 w e a pid p s) as [c' Hc]; auto.
  pose proof (w_reach_ok _ _ (w_start_ok _ H0) Hreach) as Hok.
  pose proof (ex_wf_pool _ _ _ _ (proj1 Hok) Hp) as Hwf. apply pl_reachable_wf in Hwf.
  assert (Hcall : ex_call (w_ex w) e (CRemoveLiquidity pid s (repeat 0 (length (pl_tokens p)))) = Some (c', [])).
  { cbn [ex_call]. rewrite Hc. reflexivity. }
  eexists. split; [eapply ready_call; eauto|]. unfold w_queue. cbn [enqueue w_hold w_flights w_ex]. split; [done|]. split; [done|].
  apply ex_remove_liquidity_inv in Hc as (tw & p0 & p' & acc & acc' & _ & _ & Hp0 & Hacc & _ & _ & Hrem & Hdep & _ & ->).
  rewrite Hp in Hp0. injection Hp0 as <-.
  pose proof (pl_remove_spec p (ex_rates (w_ex w)) (e_now e) _ _ _ _ _ Hwf Hrem) as (Hst & _ & _ & _ & Hsh).
  pose proof (pl_step_same _ _ _ _ Hwf Hst) as (_ & Htok & _). rewrite Htok in Hdep.
  destruct Hr as (Ha & _). subst a. split.
  - unfold shares_at. change (ex_pool (ex_put ?c ?b ?z) pid) with (ex_pool c pid). rewrite ex_pool_put by (eexists; exact Hp).
    rewrite N.eqb_refl, Hp. specialize (Hsh (e_caller e)). now rewrite only_same in Hsh.
  - intros t. rewrite held_by_put, String.eqb_refl, (held_by_account _ _ _ _ Hacc).
    apply ac_deposit_all_spec in Hdep as (_ & Hd & _); [apply Hd| |now apply pl_wf_nodup].
    eapply ex_wf_account; [apply Hok|exact Hacc].
Qed.
Print Assumptions C65_redeem.
(** Simple pools have no least balances. *)
Lemma simple_leaves p s : is_simple p -> leaves_enough p s.
Proof. destruct p as [q|q]; [intros _|done]. unfold leaves_enough, least_left. apply Forall_forall. intros r _. apply N.le_0_l. Qed.
Theorem C65_redeem_simple w0 w e a pid p s :
  w_start w0 -> records_sound w0 -> w_reach w0 w -> (forall t, t ∈ pl_tokens p -> standard t w0 w) ->
  ready w e a -> e_now e < 2 ^ 32 * 10 ^ 9 -> ex_pool (w_ex w) pid = Some p -> is_simple p -> (forall t, t ∈ pl_tokens p -> ~ frozen w t) ->
  room_for (w_ex w) a (pl_tokens p) -> 0 < s <= free_shares (w_ex w) pid a ->
  exists w1, w_step w (EvCall e (CRemoveLiquidity pid s (repeat 0 (length (pl_tokens p))))) = Some w1 /\
    w_hold w1 = w_hold w /\ w_flights w1 = w_flights w /\
    shares_at (w_ex w1) pid a + s = shares_at (w_ex w) pid a /\
    (forall t, held_by (w_ex w1) a t = held_by (w_ex w) a t + beside t (pl_tokens p) (worth p s)).
Proof. intros H0 Hrec Hreach Hstd Hr HW Hp Hsi Hfr Hroom Hs. eapply C65_redeem; eauto using simple_leaves. Qed.
Print Assumptions C65_redeem_simple.
(** The least balances of stable pools are really asked for: a redemption that succeeds leaves them. *)
Lemma st_redeem_all_leaves k S s ds : forall cs ms als ls,
  st_redeem_all k S s ds cs ms = Some (als, ls) -> Forall (fun c => min_reserve k <= c - c * s / S) cs.
Proof.
  induction ds as [|d ds IH]; intros [|c cs] [|m ms] als ls H; try discriminate H; cbn [st_redeem_all] in H; [constructor|].
  apply bind_Some in H as ([a l] & Ha & H). apply bind_Some in H as ([als' ls'] & Hr & H). injection H as <- <-.
  apply IH in Hr. constructor; [|done].
  unfold st_redeem in Ha. bnd Ha x Hx. bnd Ha q Hq. bnd Ha r Hr'. bnd Ha lf Hl. bnd Ha u Hu. apply ensure_Some, N.leb_le in Hu.
  apply cmul_Some in Hx as [-> _]. apply cdiv_Some in Hq as [-> _]. apply fit_Some in Hr' as [-> _]. apply csub_Some in Hl as [-> _]. exact Hu.
Qed.
Theorem C65_floor w e pid p s mins w1 :
  ex_pool (w_ex w) pid = Some p -> w_step w (EvCall e (CRemoveLiquidity pid s mins)) = Some w1 -> leaves_enough p s.
Proof.
  intros Hp H. unfold w_step in H. cbv zeta in H. bnd H z Hz. bnd H z' Hz'. bnd H q Hq. destruct q as [c' ps]. cbn [ex_call] in Hq. clear H.
  apply quiet2_inv in Hq as (out & Hq & _). apply ex_remove_liquidity_inv in Hq as (tw & p0 & p' & acc & acc' & _ & _ & Hp0 & _ & _ & _ & Hrem & _).
  rewrite Hp in Hp0. injection Hp0 as <-. destruct p as [q|q]; [now apply simple_leaves|]. cbn [pl_remove_liquidity] in Hrem. bnd Hrem r Hr. destruct r as [q' l].
  unfold st_remove_by_shares in Hr. grd Hr. bnd Hr m Hm. bnd Hr y Hy. destruct y as [am rs]. unfold leaves_enough, balances, least_left, pl_supply. eapply st_redeem_all_leaves; eauto.
Qed.
Print Assumptions C65_floor.
(** Redeemed amounts can then be withdrawn, so that the user really gets the tokens. *)
Theorem C65_exit w0 w e a pid p s t skip :
  w_start w0 -> records_sound w0 -> w_reach w0 w -> (forall t, t ∈ pl_tokens p -> standard t w0 w) ->
  ready w e a -> e_now e < 2 ^ 32 * 10 ^ 9 -> ex_pool (w_ex w) pid = Some p -> (forall t, t ∈ pl_tokens p -> ~ frozen w t) ->
  room_for (w_ex w) a (pl_tokens p) -> 0 < s <= free_shares (w_ex w) pid a ->
  (is_Some (ex_twap (w_ex w) !! pid) -> one_share p < pl_supply p -> leaves_enough p (one_share p)) ->
  leaves_enough p s -> t ∈ pl_tokens p -> 0 < beside t (pl_tokens p) (worth p s) ->
  exists w1 w2, w_step w (EvCall e (CRemoveLiquidity pid s (repeat 0 (length (pl_tokens p))))) = Some w1 /\
    pays w1 e (CWithdraw t (beside t (pl_tokens p) (worth p s)) false skip) a t (beside t (pl_tokens p) (worth p s)) w2 /\
    shares_at (w_ex w2) pid a + s = shares_at (w_ex w) pid a /\
    held_by (w_ex w2) a t = held_by (w_ex w) a t /\ w_hold w2 t + beside t (pl_tokens p) (worth p s) = w_hold w t.
Proof.
  intros H0 Hrec Hreach Hstd Hr HW Hp Hfr Hroom Hs Hobs Hle Hin Hpos.
  destruct (C65_redeem w0 w e a pid p s) as (w1 & Hstep & Hhold & _ & Hsh & Hheld); auto.
  exists w1. pose proof (w_reach_ok _ _ (w_start_ok _ H0) Hreach) as Hok.
  pose proof (ex_wf_pool _ _ _ _ (proj1 Hok) Hp) as Hwf. apply pl_reachable_wf in Hwf.
  pose proof Hstep as Hst. unfold w_step in Hst. cbv zeta in Hst. bnd Hst z Hz. bnd Hst z' Hz'. bnd Hst q Hq. destruct q as [c' ps]. cbn [ex_call] in Hq. injection Hst as Ew.
  destruct (w_queue_ex w c' (w_hold w) (w_flights w) ps (e_now e)) as (Ex & En & _). rewrite Ew in Ex, En.
  apply quiet2_inv in Hq as (out & Hq & _). apply ex_remove_liquidity_inv in Hq as (tw & p0 & p' & acc & acc' & _ & _ & Hp0 & Hacc & _ & _ & Hrem & Hdep & Hcov & Ec).
  rewrite Hp in Hp0. injection Hp0 as <-.
  pose proof (pl_remove_spec p (ex_rates (w_ex w)) (e_now e) _ _ _ _ _ Hwf Hrem) as (Hpst & _ & _ & _ & _).
  pose proof (pl_step_same _ _ _ _ Hwf Hpst) as Hsame. pose proof Hsame as (Hkd & Htok & Hdec). rewrite Htok in Hdep.
  assert (out = worth p s) as ->.
  { assert (E : exists p2, pl_remove_liquidity p (e_caller e) s (repeat 0 (length (pl_tokens p))) false = Some (p2, worth p s)); [|destruct E as [p2 E]; rewrite E in Hrem; now injection Hrem].
    destruct Hr as (Ha & _). subst a. pose proof (pl_wf_supply _ Hwf) as [_ Hsup]. specialize (Hsup (e_caller e)).
    assert (s <= pl_share_of p (e_caller e)). { destruct Hs as [_ Hs]. unfold free_shares, shares_at in Hs. rewrite Hp in Hs. lia. }
    apply pl_remove_intro; auto; [lia|]. intros u Hu. apply Hstd in Hu as [_ Hx]. eapply Forall_lookup_1 in Hx; [exact Hx|exact Hp]. }
  assert (Hcfg : ex_cfg (w_ex w1) = ex_cfg (w_ex w)) by (rewrite Ex, Ec; reflexivity).
  assert (Hslf : ex_self (w_ex w1) = ex_self (w_ex w)) by (rewrite Ex, Ec; reflexivity).
  pose proof Hr as (Ha & Hy & Hself & [Hn HW64] & Hrun). subst a.
  assert (Hacc1 : ex_account (w_ex w1) (e_caller e) = Some acc'). { rewrite Ex, Ec, ex_account_put, String.eqb_refl. reflexivity. }
  destruct (C64_withdraw t w0 w1 e (e_caller e) acc' (beside t (pl_tokens p) (worth p s)) skip) as (w2 & Hpay & Hh2); auto.
  - split.
    + eapply w_backed_step; [apply (Hstd t Hin)| | |exact Hstep]; exact I.
    + destruct (Hstd t Hin) as [_ Hx]. unfold exact_token. rewrite Ex, Ec. change (ex_pools (ex_put (ex_put_pool (ex_set_twap (w_ex w) tw) pid p') (e_caller e) acc')) with (<[N.to_nat pid := p']> (ex_pools (w_ex w))).
      apply Forall_insert; [exact Hx|]. apply (pl_same_exact p' p t); [unfold pl_same; auto|]. exact (Forall_lookup_1 _ _ _ _ Hx Hp).
  - unfold ready. rewrite Hslf, Hcfg, En. split_and!; auto.
  - unfold frozen. rewrite Hcfg. now apply Hfr.
  - unfold covered_at. rewrite Hacc1. exact Hcov.
  - apply ac_deposit_all_moves in Hdep as [_ Hdep]. auto.
  - rewrite Hheld. split; [done|]. apply N.le_add_l.
  - exists w2. split; [done|]. split; [done|]. rewrite Hheld in Hh2.
    destruct Hpay as (w1' & q & Hs1 & _ & _ & Hs2 & Hh). rewrite Hhold in Hh. split; [|split; [lia|exact Hh]].
    assert (Hpool : ex_pools (w_ex w2) = ex_pools (w_ex w1)).
    { apply C24_withdraw_schedules in Hs1 as (x & q' & _ & _ & _ & _ & Hfl & _ & _ & Hpools & _).
      - rewrite <- Hpools. unfold w_step in Hs2. cbv zeta in Hs2. bnd Hs2 f Hf. destruct f as [|f|]; try discriminate Hs2.
        destruct f; try discriminate Hs2; grd Hs2; injection Hs2 as <-; reflexivity.
      - eapply w_reach_ok; [apply (w_start_ok _ H0)|]. econstructor; eauto. }
    unfold shares_at, ex_pool in *. rewrite Hpool. exact Hsh.
Qed.
Print Assumptions C65_exit.

(** ** Examples *)
(** bob withdraws part of the deposit, alice redeems a tenth of the shares and withdraws the tokens *)
Lemma live_standard t : standard t w_fresh w_live.
Proof. split; [eapply w_run_backed; [|constructor|exact w_live_runs]; reflexivity|apply simple_exact; vm_compute; reflexivity]. Qed.
Lemma fresh_records : records_sound w_fresh.
Proof. intros pid i Hi. assert (E : ex_twap (w_ex w_fresh) = ∅) by (vm_compute; reflexivity). rewrite E, lookup_empty in Hi. discriminate Hi. Qed.
Lemma live_reach : w_reach w_fresh w_live.
Proof. eapply w_run_reach; [constructor|exact w_live_runs]. Qed.
Lemma live_not_frozen t : ~ frozen w_live t.
Proof. assert (E : cf_frozen (ex_cfg (w_ex w_live)) = ∅) by (vm_compute; reflexivity). unfold frozen. rewrite E. apply not_elem_of_empty. Qed.
Lemma live_ready t a : 108 <= t < 2 ^ 64 -> String.eqb a "ref" = false -> ready w_live (env t a 1) a.
Proof.
  intros Ht Ha. assert (E1 : ex_self (w_ex w_live) = "ref"%string) by (vm_compute; reflexivity).
  assert (E2 : w_now w_live = 108) by (vm_compute; reflexivity). unfold ready. rewrite E1, E2. clear E1 E2. split; [reflexivity|]. split; [reflexivity|].
  split; [apply String.eqb_neq; exact Ha|]. split; [exact Ht|vm_compute; reflexivity].
Qed.
Definition live_account (a : AccountId) : Account := default ac_new (ex_account (w_ex w_live) a).
Example C64_ex :
  w_start w_fresh /\ standard "a" w_fresh w_live /\ ready w_live (env 200 "bo" 1) "bo" /\ ~ frozen w_live "a" /\
  ex_account (w_ex w_live) "bo" = Some (live_account "bo") /\ covered_at (w_ex w_live) "bo" /\ ac_legacy (live_account "bo") !! "a"%string = None /\
  held_by (w_ex w_live) "bo" "a" = 50000.
Proof.
  split; [apply w_fresh_start|]. split; [apply live_standard|]. split; [apply live_ready; [vm_compute; split; [discriminate|reflexivity]|reflexivity]|]. split; [apply live_not_frozen|].
  split; [unfold live_account; apply (run_default ac_new (ex_account (w_ex w_live) "bo")); vm_compute; reflexivity|].
  split; [vm_compute; discriminate|]. split; vm_compute; reflexivity.
Qed.
Definition no_pool : Pool := PSimple (mkSimplePool [] [] 0 ∅ 0).
Definition live_pool : Pool := default no_pool (ex_pool (w_ex w_live) 0).
Example C65_ex :
  w_start w_fresh /\ records_sound w_fresh /\ w_reach w_fresh w_live /\ (forall t, t ∈ pl_tokens live_pool -> standard t w_fresh w_live) /\
  ready w_live (env 200 "al" 1) "al" /\ ex_pool (w_ex w_live) 0 = Some live_pool /\ is_simple live_pool /\
  room_for (w_ex w_live) "al" (pl_tokens live_pool) /\ free_shares (w_ex w_live) 0 "al" = 10 ^ 24 /\
  worth live_pool (10 ^ 23) = [90000; 80000].
Proof.
  split; [apply w_fresh_start|]. split; [apply fresh_records|]. split; [apply live_reach|]. split; [intros t _; apply live_standard|].
  split; [apply live_ready; [vm_compute; split; [discriminate|reflexivity]|reflexivity]|]. split; [apply run_default; vm_compute; reflexivity|].
  split; [vm_compute; exact I|]. split; [exists (live_account "al"); split; [unfold live_account; apply (run_default ac_new (ex_account (w_ex w_live) "al")); vm_compute; reflexivity|vm_compute; discriminate]|].
  split; vm_compute; reflexivity.
Qed.
(** bob claims what a failed transfer recorded *)
Definition w_lost : World := default w_live (w_run w_live (take 5 claim_events)).
Example C64_claim_ex :
  standard "a" w_fresh w_lost /\ ready w_lost (env 200 "bo" 1) "bo" /\ ~ frozen w_lost "a" /\ lost_of (w_ex w_lost) "bo" "a" = 50000.
Proof.
  assert (R : w_run w_live (take 5 claim_events) = Some w_lost) by (apply run_default; vm_compute; reflexivity).
  split; [split; [eapply w_run_backed; [|apply live_standard|exact R]; reflexivity|apply simple_exact; vm_compute; reflexivity]|].
  split; [|split; [|vm_compute; reflexivity]].
  - assert (E1 : ex_self (w_ex w_lost) = "ref"%string) by (vm_compute; reflexivity).
    assert (E2 : w_now w_lost = 122) by (vm_compute; reflexivity). unfold ready. rewrite E1, E2. clear E1 E2. split; [reflexivity|]. split; [reflexivity|].
    split; [apply String.eqb_neq; reflexivity|]. split; [split; vm_compute; [discriminate|reflexivity]|vm_compute; reflexivity].
  - assert (E : cf_frozen (ex_cfg (w_ex w_lost)) = ∅) by (vm_compute; reflexivity). unfold frozen. rewrite E. apply not_elem_of_empty.
Qed.
(** alice redeems part of the shares of the stable pool; but nobody can redeem all of a stable pool *)
Definition rich_stable : Pool := default no_pool (ex_pool (w_ex w_rich) 1).
Example C65_stable_ex :
  ex_pool (w_ex w_rich) 1 = Some rich_stable /\ ex_twap (w_ex w_rich) !! 1 = None /\ leaves_enough rich_stable (10 ^ 18) /\
  free_shares (w_ex w_rich) 1 "al" = 10999904714878341566 /\ worth rich_stable (10 ^ 18) = [454549; 545459].
Proof.
  split; [unfold rich_stable; apply (run_default no_pool (ex_pool (w_ex w_rich) 1)); vm_compute; reflexivity|]. split; [vm_compute; reflexivity|]. split.
  - unfold leaves_enough. assert (E : balances rich_stable = [5 * 10 ^ 18; 6 * 10 ^ 18]) by (vm_compute; reflexivity). rewrite E.
    constructor; [vm_compute; discriminate|]. constructor; [vm_compute; discriminate|constructor].
  - split; vm_compute; reflexivity.
Qed.
(** The last holder of a stable pool cannot redeem all shares: [leaves_enough] is needed. *)
Theorem C65_sole_holder_refuted :
  w_start w_fresh /\ w_backed "b" w_fresh w_rich /\ w_backed "c" w_fresh w_rich /\ ready w_rich (env 200 "al" 1) "al" /\
  ex_pool (w_ex w_rich) 1 = Some rich_stable /\ free_shares (w_ex w_rich) 1 "al" = pl_supply rich_stable /\
  room_for (w_ex w_rich) "al" (pl_tokens rich_stable) /\
  forall mins, w_step w_rich (EvCall (env 200 "al" 1) (CRemoveLiquidity 1 (pl_supply rich_stable) mins)) = None.
Proof.
  assert (Hp : ex_pool (w_ex w_rich) 1 = Some rich_stable) by (unfold rich_stable; apply (run_default no_pool (ex_pool (w_ex w_rich) 1)); vm_compute; reflexivity).
  assert (B : forall t, w_backed t w_fresh w_rich).
  { intros t. eapply w_run_backed; [|apply (live_standard t)|exact w_rich_runs]. reflexivity. }
  split; [apply w_fresh_start|]. split; [apply B|]. split; [apply B|]. split.
  { assert (E1 : ex_self (w_ex w_rich) = "ref"%string) by (vm_compute; reflexivity).
    assert (E2 : w_now w_rich = 117) by (vm_compute; reflexivity). unfold ready. rewrite E1, E2. clear E1 E2. split; [reflexivity|]. split; [reflexivity|].
    split; [apply String.eqb_neq; reflexivity|]. split; [split; vm_compute; [discriminate|reflexivity]|vm_compute; reflexivity]. }
  split; [exact Hp|]. split; [vm_compute; reflexivity|]. split.
  { exists (default ac_new (ex_account (w_ex w_rich) "al")). split; [apply (run_default ac_new (ex_account (w_ex w_rich) "al")); vm_compute; reflexivity|vm_compute; discriminate]. }
  intros mins. destruct (w_step w_rich _) as [w1|] eqn:E; [exfalso|reflexivity].
  pose proof (C65_floor _ _ _ _ _ _ _ Hp E) as H. clear -H. unfold leaves_enough in H.
  assert (Eb : balances rich_stable = [5 * 10 ^ 18; 6 * 10 ^ 18]) by (vm_compute; reflexivity). rewrite Eb in H. clear Eb.
  inversion H as [|? ? H1 _]. revert H1. vm_compute. intros H1. now apply H1.
Qed.
Print Assumptions C65_sole_holder_refuted.
(** An account of the first format whose NEAR is exactly its storage cannot withdraw a part of an old
    entry, because the entry becomes longer: the hypothesis on old entries in [C64_withdraw] is needed. *)
Definition old_near : N := (102 + 84) * 10 ^ 19.
Definition ex_old : Exchange := ex_set_accounts ex_fresh (<["al" := VA1 old_near {["a" := 100]}]> (ex_accounts ex_fresh)).
Definition w_old : World := mkWorld ex_old (fun _ => 100) ∅ 0 100.
Theorem C64_old_entry_refuted :
  w_start w_old /\ standard "a" w_old w_old /\ ready w_old (env 200 "al" 1) "al" /\ covered_at (w_ex w_old) "al" /\
  held_by (w_ex w_old) "al" "a" = 100 /\
  forall skip, w_step w_old (EvCall (env 200 "al" 1) (CWithdraw "a" 50 false skip)) = None.
Proof.
  assert (S : w_start w_old).
  { unfold w_start, w_old. cbn [w_now w_ex w_flights w_hold]. split; [|split; [reflexivity|]].
    - split.
      + assert (E : ex_pools ex_old = []) by (vm_compute; reflexivity). rewrite E. constructor.
      + assert (E : ex_accounts ex_old = {["al" := VA1 old_near {["a" := 100]}]}) by (vm_compute; reflexivity). rewrite E. clear E.
        apply map_Forall_singleton. intros t x _. cbn [into_current ac_tokens]. apply lookup_empty.
    - intros t. split; [|vm_compute; reflexivity]. unfold owed, total_deposits, total_reserves, total_lost.
      assert (E : ex_accounts ex_old = {["al" := VA1 old_near {["a" := 100]}]}) by (vm_compute; reflexivity). rewrite E. clear E.
      assert (E : ex_pools ex_old = []) by (vm_compute; reflexivity). rewrite E. clear E.
      assert (E : ex_lost ex_old = ∅) by (vm_compute; reflexivity). rewrite E. clear E.
      rewrite msum_empty. unfold singletonM, map_singleton. rewrite msum_insert_None by apply lookup_empty. rewrite msum_empty.
      cbn [into_current]. unfold ac_held, ac_get_balance. cbn [ac_tokens ac_legacy]. rewrite lookup_empty. cbn [fmap list_fmap lsum].
      destruct (decide (t = "a"%string)) as [E|E].
      + rewrite E. vm_compute. discriminate.
      + rewrite lookup_insert_ne by (intros X; apply E; symmetry; exact X). rewrite lookup_empty. vm_compute. discriminate. }
  split; [exact S|]. split; [split; [constructor|apply simple_exact; vm_compute; reflexivity]|]. split.
  { unfold ready. split; [reflexivity|]. split; [reflexivity|]. split; [apply String.eqb_neq; vm_compute; reflexivity|].
    split; [split; vm_compute; [discriminate|reflexivity]|vm_compute; reflexivity]. }
  split; [vm_compute; discriminate|]. split; [vm_compute; reflexivity|]. intros [[]|]; vm_compute; reflexivity.
Qed.
Print Assumptions C64_old_entry_refuted.
