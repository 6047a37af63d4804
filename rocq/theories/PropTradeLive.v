(** * C91: quoted trades execute *)
From Verif Require Import Base BaseLemmas SimplePool SimplePoolProofs SpecSimple SimplePoolInv SimpleFacts StableMath StablePool
  SpecStable StablePoolProofs StablePoolInv StableFacts Rates Echo Twap SpecTwap PropTwap.
From Verif Require Import PropSimple PropStable.
From Verif Require Import Account Pool Exchange SpecExchange AccountProofs PoolFacts
  ExchangeProofs ExchangeInv ExchangeEffect ExchangeFrames SpecWorld WorldProofs ExExample PropWorld SpecSwap SwapProofs SpecHistory HistoryProofs
  PropHistory TwapInv SpecRecords PropRecords SpecExit ExitProofs PropExit Views SpecSettings PropSettings SpecTradeLive TradeLive.

(** In every execution with fewer than [2^32] pools, every pool that has volume counters has one pair per token. *)
Theorem C91_counters w0 w : w_ok w0 -> counters_sized (w_ex w0) -> w_reach w0 w ->
  N.of_nat (length (ex_pools (w_ex w))) <= 2 ^ 32 -> counters_sized (w_ex w).
Proof. intros Hok H0 Hr Hl. now apply (sized_reach w0 w). Qed.
Print Assumptions C91_counters.

Lemma ex_pools_sound w0 w t pid p : w_start w0 -> standard t w0 w -> ex_pool (w_ex w) pid = Some p -> pl_exact p t.
Proof. intros H0 [_ Hx] Hp. eapply Forall_lookup_1 in Hx; [exact Hx|exact Hp]. Qed.

(** A swap of an amount that the caller holds in new-style entries, for which [get_return] shows [out], is executed and
    credits [out]: as long as the exchange is running, the two tokens are not frozen, the tokens of the pool are standard,
    the caller's NEAR pays for an entry of the output token, and no more than [out] is demanded.  For degen pools
    the caller skips the price refresh. *)
Theorem C91_swap w0 w e a acc pid p ti x to mn r skip out :
  w_start w0 -> sound_start w0 -> w_reach w0 w -> (forall t, t ∈ pl_tokens p -> standard t w0 w) ->
  ready w e a -> e_now e < 2 ^ 32 * 10 ^ 9 -> can_trade w pid p ->
  ~ frozen w ti -> ~ frozen w to -> skip = true \/ pl_kind p <> STABLE_SWAP KDegen ->
  ex_account (w_ex w) a = Some acc -> ac_legacy acc !! ti = None -> 0 < x <= held_by (w_ex w) a ti ->
  room_for (w_ex w) a [to] ->
  v_get_return (w_ex w) (e_now e) pid ti x to = Some out -> mn <= out ->
  exists w1, w_step w (EvCall e (CSwap [ASwap pid ti (Some x) to mn] r skip)) = Some w1 /\
    w_hold w1 = w_hold w /\ w_flights w1 = w_flights w /\
    forall t, held_by (w_ex w1) a t + only ti t x = held_by (w_ex w) a t + only to t out.
Proof.
  intros H0 (Hrec & Hsz & Href) Hreach Hstd Hr HW (Hp & Hfew & Hroom & Hobs) Hfi Hfo Hsk Hacc Hleg Hx Hst Hq Hmn.
  pose proof (w_reach_ok _ _ (w_start_ok _ H0) Hreach) as Hok.
  assert (Hex : forall t, t ∈ pl_tokens p -> pl_exact p t) by (intros t Ht; eapply ex_pools_sound; eauto).
  pose proof (pl_reachable_wf _ _ (ex_wf_pool _ _ _ _ (proj1 Hok) Hp)) as Hwf.
  pose proof (ex_wf_account _ _ _ _ (proj1 Hok) Hacc) as Hdj.
  pose proof Hr as (Ha & Hy & Hself & [Hn HW64] & Hrun). subst a.
  assert (Hquote : exists q, pl_swap p (ex_rates (w_ex w)) (e_now e) ti x to 0 (ex_fees (w_ex w)) true = Some (q, out)).
  { unfold v_get_return in Hq. rewrite Hp in Hq. cbn [mbind option_bind] in Hq. bnd Hq y Hy'. destruct y as [q o]. injection Hq as ->. eauto. }
  destruct Hquote as [q Hqu].
  assert (Hto : to ∈ pl_tokens p) by (eapply pl_swap_view_out; eauto).
  destruct (pl_swap_quoted p (ex_rates (w_ex w)) (e_now e) ti x to mn (ex_fees_ref (w_ex w) (ex_referral (w_ex w) r)) (ex_fees (w_ex w)) q out) as [p' Hp']; auto.
  { intros rid rfee E. exact (referral_small w0 w r rid rfee Href Hreach E). }
  pose proof (pl_swap_spec _ _ _ _ _ _ _ _ _ _ Hwf Hp') as (_ & Hne & _ & Hti & _ & Hres & _).
  assert (Hsum : held_by (w_ex w) (e_caller e) to + out < W128).
  { destruct (Hstd to Hto) as [Hb Hx']. pose proof (C01_solvent_partial _ _ _ H0 Hb Hx') as Hsolv.
    destruct (w_backed_sound _ _ _ H0 Hb) as (_ & _ & Hh & _). pose proof (held_by_le (w_ex w) (e_caller e) to) as Hd.
    pose proof (pl_reserve_le _ _ _ to Hp) as Hpr. specialize (Hres to). rewrite only_same, only_ne in Hres by congruence. unfold owed in Hsolv. lia. }
  assert (Hx128 : x < W128).
  { destruct (Hstd ti Hti) as [Hb Hx']. pose proof (held_le_hold _ _ _ (e_caller e) H0 (Hstd ti Hti)) as Hh.
    destruct (w_backed_sound _ _ _ H0 Hb) as (_ & _ & Hh' & _). lia. }
  destruct (ex_pool_swap_intro w0 w e pid p ti x to mn r out) as [c1 Hc1]; auto; [lia|].
  assert (Hx2 : 0 < x <= ac_held acc ti) by now rewrite <- (held_by_account _ _ _ ti Hacc).
  destruct (ac_withdraw_new acc ti x Hleg Hx2) as (acc1 & Hw & Hu & Hnear).
  pose proof (ac_withdraw_spec _ _ _ _ Hdj Hw) as ((Hd1 & _) & Hh1 & _).
  assert (Hheld : ac_held acc1 to = ac_held acc to). { specialize (Hh1 to). rewrite only_ne in Hh1 by congruence. lia. }
  destruct (ac_deposit_intro acc1 to out Hd1) as (acc2 & Hdep & Hnear2 & _ & Hu2).
  { rewrite Hheld, <- (held_by_account _ _ _ to Hacc). exact Hsum. }
  assert (Hcov : ac_storage_usage acc2 <= ac_near acc2).
  { destruct Hst as (acc0 & Hacc0 & Hst). rewrite Hacc in Hacc0. injection Hacc0 as <-. rewrite Hnear2, Hnear.
    rewrite new_entries_cons in Hst. change (new_entries acc []) with 0 in Hst.
    assert (E : ac_tokens acc1 !! to = None -> ac_tokens acc !! to = None).
    { clear - Hw Hne Hleg. unfold ac_withdraw in Hw. destruct (0 <? x); [|injection Hw as <-; auto]. rewrite Hleg in Hw. bnd Hw y Hy. bnd Hw z Hz. injection Hw as <-.
      cbn [ac_set_tokens ac_tokens]. now rewrite lookup_insert_ne by done. }
    clear - Hst Hu2 Hu E. destruct (decide (ac_tokens acc1 !! to = None)) as [D|D]; [rewrite decide_True in Hst by auto|destruct (decide _)]; lia. }
  assert (Hcall : ex_call (w_ex w) e (CSwap [ASwap pid ti (Some x) to mn] r skip) = Some (ex_put c1 (e_caller e) acc2, [])).
  { cbn [ex_call]. unfold ex_swap. rewrite ensure_intro by reflexivity. cbn [mbind option_bind]. unfold ex_execute_actions.
    rewrite running_intro by done. cbn [mbind option_bind]. rewrite ensure_intro by reflexivity. cbn [mbind option_bind].
    rewrite Hacc. cbn [mbind option_bind]. rewrite Hy. replace (1 =? 0) with false by reflexivity. cbn [mbind option_bind].
    unfold ex_execute. replace (same_action_type [ASwap pid ti (Some x) to mn]) with (Some tt) by reflexivity. cbn [mbind option_bind].
    rewrite no_frozen_intro. 2: { cbn [act_tokens flat_map act_in act_out app]. intros t Ht. apply elem_of_cons in Ht as [->|Ht]; [exact Hfi|]. apply elem_of_list_singleton in Ht as ->. exact Hfo. }
    cbn [mbind option_bind lookup list_lookup is_swap ex_swap_loop ex_exec_action]. rewrite Hw. cbn [mbind option_bind]. rewrite Hc1. cbn [mbind option_bind]. rewrite Hdep. cbn [mbind option_bind].
    assert (Hsync : (if skip then Some tt else ts ← ex_degen_tokens c1 [ASwap pid ti (Some x) to mn]; rs_batch_update_request (ex_rates c1) ts) = Some tt).
    { destruct Hsk as [->|Hk]; [done|]. destruct skip; [done|]. eapply no_degen_refresh; [apply Hok|exact Hn|exact HW64|exact Hp|exact Hk|exact Hc1|]. intros b [<-|[]]. reflexivity. }
    rewrite Hsync. cbn [mbind option_bind]. rewrite ex_save_intro by done. reflexivity. }
  eexists. split; [eapply ready_call; eauto|]. unfold w_queue. cbn [enqueue w_hold w_flights w_ex]. split; [done|]. split; [done|].
  intros t. rewrite held_by_put, String.eqb_refl, (held_by_account _ _ _ _ Hacc).
  pose proof (ac_deposit_spec _ _ _ _ Hd1 Hdep) as (_ & Hh2 & _). specialize (Hh1 t). specialize (Hh2 t). lia.
Qed.
Print Assumptions C91_swap.

(** Likewise a swap by output for which [get_return_by_output] shows [inp], a price the caller holds. *)
Theorem C91_swap_by_output w0 w e a acc pid p ti x to mx r skip inp :
  w_start w0 -> sound_start w0 -> w_reach w0 w -> (forall t, t ∈ pl_tokens p -> standard t w0 w) ->
  ready w e a -> e_now e < 2 ^ 32 * 10 ^ 9 -> can_trade w pid p ->
  ~ frozen w ti -> ~ frozen w to ->
  ex_account (w_ex w) a = Some acc -> ac_legacy acc !! ti = None -> 0 < inp <= held_by (w_ex w) a ti ->
  room_for (w_ex w) a [to] ->
  v_get_return_by_output (w_ex w) pid ti x to = Some inp -> (forall m, mx = Some m -> inp <= m) ->
  exists w1, w_step w (EvCall e (CSwapByOutput [ASwapByOutput pid ti (Some x) to mx] r skip)) = Some w1 /\
    w_hold w1 = w_hold w /\ w_flights w1 = w_flights w /\
    forall t, held_by (w_ex w1) a t + only ti t inp = held_by (w_ex w) a t + only to t x.
Proof.
  intros H0 (Hrec & Hsz & Href) Hreach Hstd Hr HW (Hp & Hfew & Hroom & Hobs) Hfi Hfo Hacc Hleg Hx Hst Hq Hmx.
  pose proof (w_reach_ok _ _ (w_start_ok _ H0) Hreach) as Hok.
  assert (Hex : forall t, t ∈ pl_tokens p -> pl_exact p t) by (intros t Ht; eapply ex_pools_sound; eauto).
  pose proof (pl_reachable_wf _ _ (ex_wf_pool _ _ _ _ (proj1 Hok) Hp)) as Hwf.
  pose proof (ex_wf_account _ _ _ _ (proj1 Hok) Hacc) as Hdj.
  pose proof Hr as (Ha & Hy & Hself & [Hn HW64] & Hrun). subst a.
  assert (Hquote : exists q, pl_swap_by_output p ti x to None (ex_fees (w_ex w)) true = Some (q, inp)).
  { unfold v_get_return_by_output in Hq. rewrite Hp in Hq. cbn [mbind option_bind] in Hq. bnd Hq y Hy'. destruct y as [q o]. injection Hq as ->. eauto. }
  destruct Hquote as [q Hqu].
  destruct (pl_swap_by_output_quoted p ti x to mx (ex_fees_ref (w_ex w) (ex_referral (w_ex w) r)) (ex_fees (w_ex w)) q inp) as [p' Hp']; auto.
  { intros rid rfee E. exact (referral_small w0 w r rid rfee Href Hreach E). }
  pose proof (pl_swap_by_output_spec _ (ex_rates (w_ex w)) (e_now e) _ _ _ _ _ _ _ Hwf Hp') as (_ & Hne & _ & Hti & Hto & _ & Hres & _).
  assert (Hsum : held_by (w_ex w) (e_caller e) to + x < W128).
  { destruct (Hstd to Hto) as [Hb Hx']. pose proof (C01_solvent_partial _ _ _ H0 Hb Hx') as Hsolv.
    destruct (w_backed_sound _ _ _ H0 Hb) as (_ & _ & Hh & _). pose proof (held_by_le (w_ex w) (e_caller e) to) as Hd.
    pose proof (pl_reserve_le _ _ _ to Hp) as Hpr. specialize (Hres to). rewrite only_same, only_ne in Hres by congruence. unfold owed in Hsolv. lia. }
  assert (Hx128 : inp < W128).
  { destruct (Hstd ti Hti) as [Hb Hx']. pose proof (held_le_hold _ _ _ (e_caller e) H0 (Hstd ti Hti)) as Hh.
    destruct (w_backed_sound _ _ _ H0 Hb) as (_ & _ & Hh' & _). lia. }
  destruct (ex_pool_swap_by_output_intro w0 w e pid p ti x to mx r inp) as [c1 Hc1]; auto; [lia|].
  destruct (ac_deposit_intro acc to x Hdj) as (acc1 & Hdep & Hnear & _ & Hu).
  { rewrite <- (held_by_account _ _ _ to Hacc). exact Hsum. }
  pose proof (ac_deposit_spec _ _ _ _ Hdj Hdep) as ((Hd1 & _) & Hh1 & _).
  assert (Hheld : ac_held acc1 ti = ac_held acc ti). { specialize (Hh1 ti). rewrite only_ne in Hh1 by congruence. lia. }
  assert (Hleg1 : ac_legacy acc1 !! ti = None) by (apply ac_deposit_moves in Hdep as [Hm _]; auto).
  assert (Hx2 : 0 < inp <= ac_held acc1 ti) by now rewrite Hheld, <- (held_by_account _ _ _ ti Hacc).
  destruct (ac_withdraw_new acc1 ti inp Hleg1 Hx2) as (acc2 & Hw & Hu2 & Hnear2).
  assert (Hcov : ac_storage_usage acc2 <= ac_near acc2).
  { destruct Hst as (acc0 & Hacc0 & Hst). rewrite Hacc in Hacc0. injection Hacc0 as <-. rewrite Hnear2, Hnear, Hu2.
    rewrite new_entries_cons in Hst. change (new_entries acc []) with 0 in Hst. clear - Hst Hu. destruct (decide _); lia. }
  assert (Hcall : ex_call (w_ex w) e (CSwapByOutput [ASwapByOutput pid ti (Some x) to mx] r skip) = Some (ex_put c1 (e_caller e) acc2, [])).
  { cbn [ex_call]. unfold ex_swap_by_output. rewrite ensure_intro by reflexivity. cbn [mbind option_bind]. unfold ex_execute_actions.
    rewrite running_intro by done. cbn [mbind option_bind]. rewrite ensure_intro by reflexivity. cbn [mbind option_bind].
    rewrite Hacc. cbn [mbind option_bind]. rewrite Hy. replace (1 =? 0) with false by reflexivity. cbn [mbind option_bind].
    unfold ex_execute. replace (same_action_type [ASwapByOutput pid ti (Some x) to mx]) with (Some tt) by reflexivity. cbn [mbind option_bind].
    rewrite no_frozen_intro. 2: { cbn [act_tokens flat_map act_in act_out app]. intros t Ht. apply elem_of_cons in Ht as [->|Ht]; [exact Hfi|]. apply elem_of_list_singleton in Ht as ->. exact Hfo. }
    cbn [mbind option_bind lookup list_lookup is_swap ex_output_loop ex_finalize]. rewrite Hdep. cbn [mbind option_bind ex_exec_action]. rewrite Hc1. cbn [mbind option_bind act_in]. rewrite Hw. cbn [mbind option_bind].
    assert (Hsync : (if skip then Some tt else ts ← ex_degen_tokens c1 [ASwapByOutput pid ti (Some x) to mx]; rs_batch_update_request (ex_rates c1) ts) = Some tt).
    { destruct skip; [done|]. eapply no_degen_refresh_by_output; [apply Hok|exact Hn|exact HW64|exact Hp|exact Hc1|]. intros b [<-|[]]. reflexivity. }
    rewrite Hsync. cbn [mbind option_bind]. rewrite ex_save_intro by done. reflexivity. }
  eexists. split; [eapply ready_call; eauto|]. unfold w_queue. cbn [enqueue w_hold w_flights w_ex]. split; [done|]. split; [done|].
  intros t. rewrite held_by_put, String.eqb_refl, (held_by_account _ _ _ _ Hacc).
  pose proof (ac_withdraw_spec _ _ _ _ Hd1 Hw) as (_ & Hh2 & _). specialize (Hh1 t). specialize (Hh2 t). lia.
Qed.
Print Assumptions C91_swap_by_output.

(** ** Examples *)
(** bob sells 1000 a, or buys 1000 b, in pool 0 *)
Lemma fresh_sound : sound_start w_fresh.
Proof.
  split; [apply fresh_records|]. split.
  - intros pid v p Hv. assert (E : ex_volumes (w_ex w_fresh) = ∅) by (vm_compute; reflexivity). rewrite E, lookup_empty in Hv. discriminate Hv.
  - intros k x Hk. assert (E : cf_referrals (ex_cfg (w_ex w_fresh)) = ∅) by (vm_compute; reflexivity). rewrite E, lookup_empty in Hk. discriminate Hk.
Qed.
Definition roomy (v : list (N * N)) : bool := forallb (fun x => (fst x + 2 ^ 128 <=? 2 ^ 256) && (snd x + 2 ^ 128 <=? 2 ^ 256)) v.
Lemma roomy_sound c pid : match ex_volumes c !! pid with Some v => roomy v | None => true end = true -> counters_room c pid.
Proof.
  intros H v Hv. rewrite Hv in H. unfold roomy in H. rewrite forallb_forall in H. apply Forall_forall. intros x Hx. apply elem_of_list_In in Hx.
  apply H in Hx. apply andb_true_iff in Hx as [H1 H2]. now rewrite !N.leb_le in *.
Qed.
Example C91_ex :
  w_start w_fresh /\ sound_start w_fresh /\ w_reach w_fresh w_live /\ (forall t, t ∈ pl_tokens live_pool -> standard t w_fresh w_live) /\
  ready w_live (env 200 "bo" 1) "bo" /\ e_now (env 200 "bo" 1) < 2 ^ 32 * 10 ^ 9 /\ can_trade w_live 0 live_pool /\
  ~ frozen w_live "a" /\ ~ frozen w_live "b" /\ ex_account (w_ex w_live) "bo" = Some (live_account "bo") /\
  ac_legacy (live_account "bo") !! "a"%string = None /\ held_by (w_ex w_live) "bo" "a" = 50000 /\ room_for (w_ex w_live) "bo" ["b"%string] /\
  v_get_return (w_ex w_live) 200 0 "a" 1000 "b" = Some 885 /\ v_get_return_by_output (w_ex w_live) 0 "a" 885 "b" = Some 1000.
Proof.
  split; [apply w_fresh_start|]. split; [apply fresh_sound|]. split; [apply live_reach|]. split; [intros t _; apply live_standard|].
  split; [apply live_ready; [vm_compute; split; [discriminate|reflexivity]|reflexivity]|]. split; [vm_compute; reflexivity|].
  split. { split; [apply run_default; vm_compute; reflexivity|]. split; [vm_compute; discriminate|]. split; [apply roomy_sound; vm_compute; reflexivity|].
    assert (E : ex_twap (w_ex w_live) !! 0 = None) by (vm_compute; reflexivity). rewrite E. intros [? [=]]. }
  split; [apply live_not_frozen|]. split; [apply live_not_frozen|].
  split; [unfold live_account; apply (run_default ac_new (ex_account (w_ex w_live) "bo")); vm_compute; reflexivity|].
  split; [vm_compute; reflexivity|]. split; [vm_compute; reflexivity|].
  split; [exists (live_account "bo"); split; [unfold live_account; apply (run_default ac_new (ex_account (w_ex w_live) "bo")); vm_compute; reflexivity|vm_compute; discriminate]|].
  split; vm_compute; reflexivity.
Qed.
