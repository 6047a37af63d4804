(** * C93: predicted chains of swaps execute *)
From Verif Require Import Base BaseLemmas SimplePool SimplePoolProofs SpecSimple SimplePoolInv SimpleFacts StableMath StablePool
  SpecStable StablePoolProofs StablePoolInv StableFacts Rates Echo Twap SpecTwap PropTwap.
From Verif Require Import PropSimple PropStable.
From Verif Require Import Account Pool Exchange SpecExchange AccountProofs PoolFacts
  ExchangeProofs ExchangeInv ExchangeEffect ExchangeFrames SpecWorld WorldProofs ExExample PropWorld SpecSwap SwapProofs PropSwap SpecHistory HistoryProofs
  PropHistory TwapInv SpecRecords PropRecords SpecExit ExitProofs PropExit Views ViewProofs PropViews SpecSettings PropSettings SpecTradeLive TradeLive PropTradeLive LiquidityLive PropLiquidity ChainLive ZapLive.

(** The pools of the chain exist, their tokens are standard, none has an average record, and their volume counters can
    take as many trades as the chain has; there are no more than [2^32] pools. *)
Definition chain_open (w0 w : World) (l : list Action) : Prop :=
  N.of_nat (length (ex_pools (w_ex w))) <= 2 ^ 32 /\
  Forall (fun a => exists p, ex_pool (w_ex w) (act_pool a) = Some p /\ (forall t, t ∈ pl_tokens p -> standard t w0 w) /\
    ex_twap (w_ex w) !! act_pool a = None /\
    forall v, ex_volumes (w_ex w) !! act_pool a = Some v ->
      Forall (fun x => fst x + N.of_nat (length l) * 2 ^ 128 <= 2 ^ 256 /\ snd x + N.of_nat (length l) * 2 ^ 128 <= 2 ^ 256) v) l.
(** No price of a degen pool has to be refreshed. *)
Definition no_refresh (w : World) (l : list Action) (skip : bool) : Prop :=
  skip = true \/ forall a p, a ∈ l -> ex_pool (w_ex w) (act_pool a) = Some p -> pl_kind p <> STABLE_SWAP KDegen.

Lemma chain_going w0 w l now :
  w_start w0 -> sound_start w0 -> w_reach w0 w -> chain_open w0 w l -> N.of_nat (length l) <= 2 ^ 128 -> w_now w <= now < 2 ^ 64 -> going now (w_ex w) (map act_pool l) (N.of_nat (length l)).
Proof.
  intros H0 (_ & Hsz & _) Hr (Hfew & Hop) Hlen [Hn HW]. pose proof (w_reach_ok _ _ (w_start_ok _ H0) Hr) as Hok.
  assert (Hf : few_pools (w_ex w)) by exact Hfew. assert (Hs : counters_sized (w_ex w)) by exact (C91_counters w0 w (w_start_ok _ H0) Hsz Hr Hfew).
  split; [eapply ex_wf_later; [exact Hn|apply Hok]|]. split; [exact Hs|]. split; [exact Hf|].
  intros pid p HP Hp. apply elem_of_list_In, in_map_iff in HP as (a & <- & Ha). apply elem_of_list_In in Ha.
  rewrite Forall_forall in Hop. destruct (Hop a Ha) as (q & Hq & Hstd & Htw & Hroom). rewrite Hp in Hq. injection Hq as <-.
  split; [|split; [exact Htw|]].
  - intros t Ht. eapply (ex_pools_sound w0 w); eauto.
  - unfold ex_volumes_of. rewrite (few_pools_id _ _ _ Hf Hp). destruct (ex_volumes (w_ex w) !! act_pool a) as [v|]; [auto|].
    apply Forall_forall. intros x Hx. apply elem_of_list_In, repeat_spec in Hx as ->. cbn [fst snd]. clear -Hlen.
    assert (N.of_nat (length l) * 2 ^ 128 <= 2 ^ 128 * 2 ^ 128) by now apply N.mul_le_mono_r. replace (2 ^ 256) with (2 ^ 128 * 2 ^ 128) by (vm_compute; reflexivity). lia.
Qed.
Lemma chain_refresh w0 w l skip : chain_open w0 w l -> no_refresh w l skip -> skip = true \/ no_degen (w_ex w) l.
Proof.
  intros [_ Hop] [Hs|Hs]; [auto|]. right. rewrite Forall_forall in Hop. apply Forall_forall. intros a Ha. destruct (Hop a Ha) as (p & Hp & _). exists p. eauto.
Qed.
Lemma chain_referral w0 w r : sound_start w0 -> w_reach w0 w -> referral_fits (ex_referral (w_ex w) r).
Proof. intros (_ & _ & Href) Hr rid rfee E. eapply referral_small; eauto. Qed.

Lemma va_out_NoDup acc : NoDup (va_out acc).*1.
Proof.
  unfold va_out. pose proof (NoDup_fst_map_to_list (ac_tokens acc)) as H. revert H. generalize (map_to_list (ac_tokens acc)) as l.
  induction l as [|[t x] l IH]; intros H; [constructor|]. cbn [fmap list_fmap fst] in H. apply NoDup_cons in H as [Hn H]. rewrite filter_cons. destruct (decide _); [|auto].
  cbn [fmap list_fmap fst]. apply NoDup_cons. split; [|auto]. intros Hi. apply Hn. apply elem_of_list_fmap in Hi as (y & -> & Hy).
  apply elem_of_list_filter in Hy as [_ Hy]. apply elem_of_list_fmap. eauto.
Qed.

(** ** Instant swaps *)
Lemma enqueue_above ps : forall m n i, i < n -> (enqueue m n ps).1 !! i = m !! i.
Proof. induction ps as [|p ps IH]; intros m n i Hi; cbn [enqueue]; [done|]. rewrite IH by lia. apply lookup_insert_ne. lia. Qed.
Lemma enqueue_at ps : forall m n k p, ps !! k = Some p -> (enqueue m n ps).1 !! (n + N.of_nat k) = Some (Leaving p).
Proof.
  induction ps as [|q ps IH]; intros m n k p Hk; [done|]. cbn [enqueue]. destruct k as [|k].
  - injection Hk as ->. rewrite enqueue_above by lia. rewrite N.add_0_r. apply lookup_insert.
  - replace (n + N.of_nat (S k)) with (n + 1 + N.of_nat k) by lia. apply IH. exact Hk.
Qed.
Lemma queued w c h m ps now : w_flights (w_queue w c h m ps now) = (enqueue m (w_next w) ps).1.
Proof. unfold w_queue. now destruct (enqueue m (w_next w) ps). Qed.
(** The transfer [id] has arrived with a chain of swaps.  If [predict_swap_actions] answers [m] for the amount, the
    chain is executed when the token contract notifies the exchange: payments of exactly [m] to the recipient are scheduled, and no
    tokens go back.  The conditions are on the pools of the chain ([chain_open]) and its first action names its amount. *)
Theorem C93_instant w0 w e id token sender amount r l skip_unwrap recipient skip m :
  w_start w0 -> sound_start w0 -> w_reach w0 w -> chain_open w0 w l -> no_refresh w l skip -> N.of_nat (length l) <= 2 ^ 128 ->
  w_flights w !! id = Some (Arriving token sender amount (MsgExecute r l false skip_unwrap recipient skip)) ->
  e_caller e = token -> e_attached e = 0 -> w_now w <= e_now e < 2 ^ 64 -> cf_running (ex_cfg (w_ex w)) = true ->
  amount < W128 -> Forall act_u128 l -> explicit l ->
  v_predict_swap_actions (w_ex w) (e_now e) {[token := amount]} l = Some m ->
  exists w1 outs, w_step w (EvNotify id e) = Some w1 /\ w_hold w1 = w_hold w /\ w_flights w1 !! id = None /\ says m outs /\ NoDup outs.*1 /\
    forall k t x, outs !! k = Some (t, x) -> 0 < x /\
      exists p, w_flights w1 !! (w_next w + N.of_nat k) = Some (Leaving p) /\ transfers p = Some (t, default sender recipient, x).
Proof.
  intros H0 Hs Hr Hop Hnr Hlen Hid Hc Ha Hn Hrun Ham Hu Hex Hv. subst token.
  pose proof (chain_going w0 w l (e_now e) H0 Hs Hr Hop Hlen Hn) as Hg.
  unfold v_predict_swap_actions in Hv. bnd Hv q Hq. destruct q as [pc m']. injection Hv as ->.
  assert (Hl : exists a0 l', l = a0 :: l').
  { unfold pc_execute in Hq. grd Hq. grd Hq. bnd Hq a0 Ha0. destruct l as [|a l']; [discriminate|]. eauto. }
  destruct Hl as (a0 & l' & El).
  destruct (ac_deposit_intro ac_new (e_caller e) amount) as (va & Hva & _); [apply ac_new_disjoint|change (ac_held ac_new (e_caller e)) with 0; lia|].
  destruct (cached_new _ _ _ Ham Hva) as (m0 & Hm0 & Hcd). unfold tc_add in Hm0. rewrite lookup_empty in Hm0. injection Hm0 as <-.
  set (prev := if is_swap a0 then Some amount else None).
  assert (Hp : pc_execute (w_ex w) (e_now e) (<[e_caller e := amount]> (∅ : gmap AccountId N)) None l prev = Some (pc, m)).
  { rewrite pc_execute_prev by done. rewrite El in *. rewrite <- Hq. unfold prev. destruct a0; reflexivity. }
  destruct (chain_execute (w_ex w) e va (<[e_caller e := amount]> ∅) (ex_referral (w_ex w) r) l prev skip pc m) as (c' & va' & res & Hx & _ & _ & [Hd2 Hc2]); auto; [apply Hn|eapply chain_referral; eauto| |eapply chain_refresh; eauto|].
  { intros y Hy. unfold prev in Hy. destruct (is_swap a0); [injection Hy as <-; exact Ham|discriminate]. }
  pose proof (ex_execute_legacy _ _ _ _ _ _ _ _ _ _ Hx (ac_deposit_legacy _ _ _ _ Hva eq_refl)) as Hl2.
  assert (Hft : ex_ft_on_transfer (w_ex w) e sender amount (MsgExecute r l false skip_unwrap recipient skip) =
    Some (c', (fun x => ex_send c' (default sender recipient) x.1 x.2 skip_unwrap) <$> va_out va')).
  { unfold ex_ft_on_transfer. cbv zeta. unfold not_payable. rewrite Ha. replace (match l with [] => false | _ => true end) with true by (rewrite El; reflexivity).
    change (ensure (0 =? 0)) with (Some tt). cbn [mbind option_bind andb negb orb]. rewrite running_intro by done. change (ensure true) with (Some tt). cbn [mbind option_bind].
    unfold ex_direct. rewrite Hva. cbn [mbind option_bind].
    assert (E0 : l !! 0%nat = Some a0) by (rewrite El; reflexivity). rewrite E0. cbn [mbind option_bind]. fold prev. rewrite Hx. cbn [mbind option_bind].
    reflexivity. }
  unfold w_step. cbv zeta. rewrite next_time_intro by done. cbn [mbind option_bind]. rewrite Hid. cbn [mbind option_bind]. rewrite ensure_intro by apply String.eqb_refl. cbn [mbind option_bind]. rewrite Hft.
  pose proof (queued w c' (w_hold w) (delete id (w_flights w)) ((fun x => ex_send c' (default sender recipient) x.1 x.2 skip_unwrap) <$> va_out va') (e_now e)) as Ef.
  eexists _, (va_out va'). split; [reflexivity|]. split; [unfold w_queue; now destruct (enqueue _ _ _)|]. rewrite Ef.
  pose proof (w_reach_ok _ _ (w_start_ok _ H0) Hr) as Hok. 
  split. { rewrite enqueue_above; [apply lookup_delete|]. exact (proj2 Hok _ _ Hid). }
  split. { intros t. rewrite va_out_held by done. symmetry. apply Hc2. }
  split. { apply va_out_NoDup. }
  intros k t x Hk. split.
  - apply elem_of_list_lookup_2 in Hk. unfold va_out in Hk. apply elem_of_list_filter in Hk as [Hx0 _]. cbn [snd] in Hx0. now apply N.ltb_lt.
  - eexists. split; [apply enqueue_at; rewrite list_lookup_fmap, Hk; reflexivity|]. cbn [fst snd]. unfold ex_send. now destruct (_ && _).
Qed.
Print Assumptions C93_instant.

(** ** Swaps of deposits *)
Lemma queue_none w c h m now : w_queue w c h m [] now = mkWorld c h m (w_next w) now.
Proof. reflexivity. Qed.
(** [execute_actions_in_va]: if [predict_swap_actions] answers [m] for the amounts taken from the caller's deposits, the call
    is executed and puts back exactly [m]; as long as the exchange is running, the caller has the amounts and pays for the
    entries of the tokens received. *)
Theorem C93_virtual w0 w e a acc use l r skip m ts :
  w_start w0 -> sound_start w0 -> w_reach w0 w -> chain_open w0 w l -> no_refresh w l skip -> N.of_nat (length l) <= 2 ^ 128 ->
  ready w e a -> Forall act_u128 l -> 
  ex_account (w_ex w) a = Some acc -> ac_legacy acc = ∅ -> map_Forall (fun t x => x < W128 /\ x <= held_by (w_ex w) a t) use ->
  (forall t, default 0 (m !! t) <> 0 -> t ∈ ts) -> room_for (w_ex w) a ts -> (forall t, held_by (w_ex w) a t + default 0 (m !! t) < W128) ->
  v_predict_swap_actions (w_ex w) (e_now e) use l = Some m ->
  exists w1, w_step w (EvCall e (CExecuteVa use l r skip)) = Some w1 /\ w_hold w1 = w_hold w /\ w_flights w1 = w_flights w /\
    forall t, held_by (w_ex w1) a t + default 0 (use !! t) = held_by (w_ex w) a t + default 0 (m !! t).
Proof.
  intros H0 Hs Hr Hop Hnr Hlen Hrd Hu Hacc Hleg Huse Hts Hroom Hfit Hv. pose proof Hrd as (Ha & Hy & Hself & Hn & Hrun). subst a.
  pose proof (chain_going w0 w l (e_now e) H0 Hs Hr Hop Hlen Hn) as Hg. pose proof Hg as (Hwf & _).
  pose proof (ex_wf_account _ _ _ _ Hwf Hacc) as Hdj.
  pose proof Hv as Hv'. unfold v_predict_swap_actions in Hv'. bnd Hv' q Hq. destruct q as [pc m']. injection Hv' as ->.
  assert (Hl : match l with [] => false | _ => true end = true).
  { unfold pc_execute in Hq. grd Hq. grd Hq. bnd Hq a0 Ha0. now destruct l as [|a l']. }
  destruct (va_take_intro (map_to_list use) acc ac_new) as (acc1 & va & Ht); [done|apply ac_new_disjoint|apply NoDup_fst_map_to_list| |].
  { intros t x Hx. apply elem_of_map_to_list in Hx. destruct (Huse t x Hx) as [Hx1 Hx2]. rewrite <- (held_by_account _ _ _ t Hacc).
    change (ac_held ac_new t) with 0. split; [exact Hx2|]. now rewrite N.add_0_l. }
  assert (Hus : map_Forall (fun _ x => x < W128) use) by (intros t x Hx; apply (Huse t x Hx)).
  destruct (cached_take _ _ _ _ Hdj Hus Ht) as (Hc & Hd1 & Hl1 & Hh1).
  destruct (chain_execute (w_ex w) e va use (ex_referral (w_ex w) r) l None skip pc m) as (c' & va' & res & Hx & _ & _ & [Hd2 Hc2]); auto; [apply Hn|eapply chain_referral; eauto|discriminate|eapply chain_refresh; eauto|].
  pose proof (ex_execute_legacy _ _ _ _ _ _ _ _ _ _ Hx Hl1) as Hl2.
  assert (Hin : forall t x, (t, x) ∈ va_out va' -> ac_held va' t = x /\ 0 < x).
  { intros t x Hx'. unfold va_out in Hx'. apply elem_of_list_filter in Hx' as [Hx0 Hx']. apply elem_of_map_to_list in Hx'. cbn [snd] in Hx0. unfold ac_held, ac_get_balance. rewrite Hx'.
    split; [reflexivity|]. now apply N.ltb_lt. }
  destruct (deposit_list_intro (va_out va') acc1 Hd1) as [acc2 Hd].
  { apply va_out_NoDup. }
  { intros t x Hx'. destruct (Hin t x Hx') as [<- _]. destruct (Hc2 t) as [<- _]. specialize (Hh1 t). specialize (Hfit t). rewrite (held_by_account _ _ _ t Hacc) in Hfit. lia. }
  pose proof (va_take_grown ts _ _ _ _ _ Hleg Ht) as G1.
  assert (G2 : grown ts acc acc2).
  { eapply grown_trans; [exact G1|]. eapply deposit_list_grown; [apply G1| |exact Hd]. intros t x Hx' _. destruct (Hin t x Hx') as [E E0]. apply Hts. destruct (Hc2 t) as [-> _]. lia. }
  assert (Hcall : ex_call (w_ex w) e (CExecuteVa use l r skip) = Some (ex_put c' (e_caller e) acc2, [])).
  { cbn [ex_call]. unfold ex_execute_in_va. rewrite running_intro by done. rewrite Hl, Hy. change (ensure true) with (Some tt). cbn [mbind option_bind]. rewrite Hacc. cbn [mbind option_bind].
    change (1 =? 0) with false. cbn [mbind option_bind]. rewrite Ht. cbn [mbind option_bind]. rewrite Hx. cbn [mbind option_bind]. rewrite Hd. cbn [mbind option_bind].
    rewrite ex_save_intro; [reflexivity|]. destruct Hroom as (acc0 & Hacc0 & Hroom). rewrite Hacc in Hacc0. injection Hacc0 as <-. exact (grown_usage ts _ _ Hleg G2 Hroom). }
  eexists. split; [eapply ready_call; eauto|]. rewrite queue_none. cbn [w_hold w_flights w_ex]. split; [done|]. split; [done|].
  intros t. apply ac_deposit_list_spec in Hd as [_ Hh2]; [|done]. rewrite held_by_put, String.eqb_refl, Hh2, (held_by_account _ _ _ _ Hacc), <- (Hh1 t), va_out_held by done.
  destruct (Hc2 t) as [-> _]. lia.
Qed.
Print Assumptions C93_virtual.

(** [execute_actions]: if [predict_swap_actions] answers [m] for the caller's deposits, the call is executed and the deposits are then
    exactly [m]; as long as the exchange is running and the caller pays for entries of the tokens the chain puts out. *)
Theorem C93_own w0 w e a acc d l r skip m :
  w_start w0 -> sound_start w0 -> w_reach w0 w -> chain_open w0 w l -> no_refresh w l skip -> N.of_nat (length l) <= 2 ^ 128 ->
  ready w e a -> Forall act_u128 l ->
  ex_account (w_ex w) a = Some acc -> ac_legacy acc = ∅ -> room_for (w_ex w) a (map act_out l) ->
  (forall t, default 0 (d !! t) = held_by (w_ex w) a t /\ held_by (w_ex w) a t < W128) ->
  v_predict_swap_actions (w_ex w) (e_now e) d l = Some m ->
  exists w1, w_step w (EvCall e (CExecute l r skip)) = Some w1 /\ w_hold w1 = w_hold w /\ w_flights w1 = w_flights w /\
    forall t, held_by (w_ex w1) a t = default 0 (m !! t).
Proof.
  intros H0 Hs Hr Hop Hnr Hlen Hrd Hu Hacc Hleg Hroom Hfit Hv. pose proof Hrd as (Ha & Hy & Hself & Hn & Hrun). subst a.
  pose proof (chain_going w0 w l (e_now e) H0 Hs Hr Hop Hlen Hn) as Hg. pose proof Hg as (Hwf & _).
  pose proof (ex_wf_account _ _ _ _ Hwf Hacc) as Hdj.
  unfold v_predict_swap_actions in Hv. bnd Hv q Hq. destruct q as [pc m']. injection Hv as ->.
  assert (Hl : match l with [] => false | _ => true end = true).
  { unfold pc_execute in Hq. grd Hq. grd Hq. bnd Hq a0 Ha0. now destruct l as [|a l']. }
  assert (Hc : cached d acc) by (split; [done|]; intros t; rewrite <- (held_by_account _ _ _ t Hacc); apply Hfit).
  destruct (chain_execute (w_ex w) e acc d (ex_referral (w_ex w) r) l None skip pc m) as (c' & acc' & res & Hx & _ & _ & [Hd2 Hc2]); auto; [apply Hn|eapply chain_referral; eauto|discriminate|eapply chain_refresh; eauto|].
  pose proof (grown_execute _ _ _ _ _ _ _ _ _ _ Hleg Hx) as G.
  assert (Hcall : ex_call (w_ex w) e (CExecute l r skip) = Some (ex_put c' (e_caller e) acc', [])).
  { cbn [ex_call]. unfold ex_execute_actions. rewrite running_intro by done. rewrite Hl, Hy. change (ensure true) with (Some tt). cbn [mbind option_bind]. rewrite Hacc. cbn [mbind option_bind].
    change (1 =? 0) with false. cbn [mbind option_bind]. rewrite Hx. cbn [mbind option_bind].
    rewrite ex_save_intro; [reflexivity|]. destruct Hroom as (acc0 & Hacc0 & Hroom). rewrite Hacc in Hacc0. injection Hacc0 as <-. exact (grown_usage _ _ _ Hleg G Hroom). }
  eexists. split; [eapply ready_call; eauto|]. rewrite queue_none. cbn [w_hold w_flights w_ex]. split; [done|]. split; [done|].
  intros t. rewrite held_by_put, String.eqb_refl. symmetry. apply Hc2.
Qed.
Print Assumptions C93_own.

(** ** Hot zaps *)
(** The transfer [id] has arrived with a chain of swaps and positions to add.  If [predict_hot_zap] answers the positions [prs] and
    the leftovers [m], the zap is executed when the token contract notifies the exchange: the sender's deposits grow by
    exactly [m], and a sender not sharing in the fees gets exactly the predicted shares.  Nothing demanded for a position is
    above what is predicted, no referral is registered, and the sender's NEAR pays for the storage. *)
Theorem C93_zap w0 w e id token sender acc amount r l infos skip prs m ts :
  w_start w0 -> sound_start w0 -> w_reach w0 w -> chain_open w0 w l -> no_refresh w l skip -> N.of_nat (length l) <= 2 ^ 128 ->
  w_flights w !! id = Some (Arriving token sender amount (MsgHotZap r l infos skip)) ->
  e_caller e = token -> e_attached e = 0 -> w_now w <= e_now e < 2 ^ 64 -> cf_running (ex_cfg (w_ex w)) = true ->
  amount < W128 -> Forall act_u128 l -> ex_referral (w_ex w) r = None ->
  ex_account (w_ex w) sender = Some acc -> ac_legacy acc = ∅ ->
  (forall t, default 0 (m !! t) <> 0 -> t ∈ ts) -> ac_storage_usage acc + new_entries acc ts * (148 * 10 ^ 19) + e_grow e <= ac_near acc ->
  (forall t, held_by (w_ex w) sender t + default 0 (m !! t) < W128) ->
  v_predict_hot_zap (w_ex w) (e_now e) r (Some sender) token amount l infos = Some (Some (prs, m)) -> Forall2 (accepts (w_ex w)) infos prs ->
  exists w1, w_step w (EvNotify id e) = Some w1 /\ w_hold w1 = w_hold w /\ w_flights w1 = delete id (w_flights w) /\
    (forall t, held_by (w_ex w1) sender t = held_by (w_ex w) sender t + default 0 (m !! t)) /\
    (outside (w_ex w) None sender -> forall pid, shares_at (w_ex w1) pid sender = shares_at (w_ex w) pid sender + foreseen pid infos prs).
Proof.
  intros H0 Hs Hr Hop Hnr Hlen Hid Hc Ha Hn Hrun Ham Hu Href Hacc Hleg Hts Hroom Hfit Hv Hac. subst token.
  pose proof (chain_going w0 w l (e_now e) H0 Hs Hr Hop Hlen Hn) as Hg. pose proof Hg as (Hwf & _).
  pose proof (ex_wf_account _ _ _ _ Hwf Hacc) as Hdj.
  assert (Hz : exists c', ex_hot_zap (w_ex w) e sender (e_caller e) amount r l infos skip = Some c').
  { unfold v_predict_hot_zap in Hv. destruct l as [|a0 l'] eqn:El; [discriminate|]. destruct infos as [|i0 infos'] eqn:Ei; [discriminate|]. rewrite <- El, <- Ei in *.
    bnd Hv tz Htz. cbv zeta in Hv. rewrite Hacc in Hv. cbn [mbind option_bind] in Hv. grd Hv. grd Hv. bnd Hv m0 Hm0. bnd Hv q Hq. destruct q as [pc mv]. bnd Hv z Hz. destruct z as [mv' prs']. injection Hv as -> ->.
    rewrite Href in Hq. set (prev := if is_swap a0 then Some amount else None) in *.
    destruct (ac_deposit_intro ac_new (e_caller e) amount) as (va & Hva & _); [apply ac_new_disjoint|change (ac_held ac_new (e_caller e)) with 0; lia|].
    destruct (cached_new _ _ _ Ham Hva) as (m0' & Hm0' & Hcd). rewrite Hm0 in Hm0'. injection Hm0' as <-.
    destruct (chain_execute (w_ex w) e va m0 None l prev skip pc mv) as (c' & va' & res & Hx & Hf & Hk & [Hd2 Hc2]); auto; [apply Hn|discriminate| |eapply chain_refresh; eauto|].
    { intros y Hy. unfold prev in Hy. destruct (is_swap a0); [injection Hy as <-; exact Ham|discriminate]. }
    pose proof (ex_execute_legacy _ _ _ _ _ _ _ _ _ _ Hx (ac_deposit_legacy _ _ _ _ Hva eq_refl)) as Hl2.
    destruct (tc_add_all_intro (va_out va') ∅ (va_out_NoDup va')) as [mm Hmm]; [intros t x _; apply lookup_empty|].
    assert (Hal : alike mm mv).
    { intros u. apply (tc_add_all_spec _ u) in Hmm. rewrite Hmm, lookup_empty, va_out_held by done. destruct (Hc2 u) as [-> _]. reflexivity. }
    pose proof Hx as Hx'. apply (ex_execute_spec (e_now e)) in Hx' as (Hw' & Hsf & _); [|done|lia|apply Hn|apply Hcd].
    destruct (zap_loop_live (w_ex w) e sender infos (proj2 Hn) pc c' mm mv m prs) as (c2 & m2 & Hz2 & Hal2); auto.
    { intros pid. destruct Hsf as (_ & _ & _ & _ & _ & Hp). unfold ex_pool. destruct (ex_pools (w_ex w) !! N.to_nat pid) as [p|] eqn:E.
      - eapply Forall2_lookup_l in Hp as (p' & -> & (Hkk & _) & _); eauto. cbn. now rewrite Hkk.
      - replace (ex_pools c' !! N.to_nat pid) with (@None Pool); [done|]. symmetry. apply lookup_ge_None. apply lookup_ge_None in E. now rewrite <- (Forall2_length _ _ _ Hp). }
    assert (Hle : e_grow e <= ac_near acc) by lia.
    set (acc0 := ac_set_near acc (ac_near acc - e_grow e)).
    assert (Hin : forall t x, (t, x) ∈ map_to_list m2 -> x = default 0 (m !! t)).
    { intros t x Hx'. apply elem_of_map_to_list in Hx'. rewrite <- (Hal2 t), Hx'. reflexivity. }
    destruct (deposit_list_intro (map_to_list m2) acc0) as [acc2 Hd]; [exact Hdj|apply NoDup_fst_map_to_list| |].
    { intros t x Hx'. rewrite (Hin t x Hx'). specialize (Hfit t). rewrite (held_by_account _ _ _ t Hacc) in Hfit. exact Hfit. }
    eexists. unfold ex_hot_zap. rewrite El, Ei. change (ensure (true && true)) with (Some tt). cbn [mbind option_bind]. rewrite <- El, <- Ei. rewrite Hacc. cbn [mbind option_bind]. rewrite Htz. cbn [mbind option_bind].
    rewrite G. cbn [mbind option_bind]. rewrite G0. cbn [mbind option_bind]. unfold ex_direct. rewrite Hva. cbn [mbind option_bind].
    assert (E0 : l !! 0%nat = Some a0) by (rewrite El; reflexivity). rewrite E0. cbn [mbind option_bind]. fold prev. rewrite Href, Hx. cbn [mbind option_bind].
    rewrite Hmm. cbn [mbind option_bind]. rewrite Hz2. cbn [mbind option_bind]. rewrite csub_intro by done. cbn [mbind option_bind]. fold acc0. rewrite Hd. cbn [mbind option_bind].
    rewrite ex_save_intro; [reflexivity|].
    (* only positive leftovers need an entry *)
    assert (G2 : grown ts acc0 acc2).
    { eapply deposit_list_grown; [exact Hleg| |exact Hd]. intros t x Hx' Hne. apply Hts. now rewrite <- (Hin t x Hx'). }
    apply (grown_usage ts acc0 acc2 Hleg G2). unfold acc0. cbn [ac_set_near ac_near]. change (new_entries (ac_set_near acc (ac_near acc - e_grow e)) ts) with (new_entries acc ts).
    change (ac_storage_usage (ac_set_near acc (ac_near acc - e_grow e))) with (ac_storage_usage acc). lia. }
  destruct Hz as [c' Hz]. destruct (C56_hot_zap (w_ex w) e sender (e_caller e) amount r l infos skip c') as (prs2 & m2 & Hv2 & _ & Hh & Hsh); auto.
  rewrite Hv in Hv2. injection Hv2 as <- <-. rewrite Href in Hsh.
  unfold w_step. cbv zeta. rewrite next_time_intro by done. cbn [mbind option_bind]. rewrite Hid. cbn [mbind option_bind]. rewrite ensure_intro by apply String.eqb_refl. cbn [mbind option_bind].
  unfold ex_ft_on_transfer. cbv zeta. unfold not_payable. rewrite Ha. change (ensure (0 =? 0)) with (Some tt). cbn [mbind option_bind]. rewrite running_intro by done. cbn [mbind option_bind].
  rewrite Hz. cbn [mbind option_bind]. eexists. split; [reflexivity|]. rewrite queue_none. cbn [w_hold w_flights w_ex]. auto.
Qed.
Print Assumptions C93_zap.

(** ** Example *)
(** There is a second pool of [a] and [b]; bob sells 1000 a for b in the first pool and the b for a in the second,
    with tokens that have just arrived or with the deposit *)
Definition ch_actions : list Action := [ASwap 0 "a" (Some 1000) "b" 1; ASwap 1 "b" None "a" 1].
Definition ch_message : TokenMsg := MsgExecute None ch_actions false None None false.
Definition ch_events : list Event := ex_events ++
  [ EvCall (env 109 "al" 1) (CAddSimplePool ["a"; "b"] 30);
    EvCall (env 110 "al" 1) (CAddLiquidity 1 [90000; 100000] None);
    EvArrive "a" "bo" 1000 ch_message ].
Definition w_chain : World := default w_fresh (w_run w_fresh ch_events).
Lemma w_chain_runs : w_run w_fresh ch_events = Some w_chain.
Proof. apply run_default. vm_compute. reflexivity. Qed.
Lemma w_chain_reach : w_reach w_fresh w_chain.
Proof. eapply w_run_reach; [constructor|exact w_chain_runs]. Qed.
Lemma w_chain_standard t : standard t w_fresh w_chain.
Proof. split; [eapply w_run_backed; [|constructor|exact w_chain_runs]; reflexivity|apply simple_exact; vm_compute; reflexivity]. Qed.
Definition chain_checked (w : World) (l : list Action) : bool :=
  (N.of_nat (length (ex_pools (w_ex w))) <=? 2 ^ 32) &&
  forallb (fun a => done_ (ex_pool (w_ex w) (act_pool a)) && negb (done_ (ex_twap (w_ex w) !! act_pool a)) &&
    match ex_volumes (w_ex w) !! act_pool a with
    | Some v => forallb (fun x => (fst x + N.of_nat (length l) * 2 ^ 128 <=? 2 ^ 256) && (snd x + N.of_nat (length l) * 2 ^ 128 <=? 2 ^ 256)) v
    | None => true end) l.
Lemma chain_checked_sound w0 w l : (forall t, standard t w0 w) -> chain_checked w l = true -> chain_open w0 w l.
Proof.
  intros Hs H. unfold chain_checked in H. apply andb_true_iff in H as [H1 H2]. split; [now apply N.leb_le|]. rewrite forallb_forall in H2. apply Forall_forall. intros a Ha.
  apply elem_of_list_In, H2 in Ha. apply andb_true_iff in Ha as [Ha Hv]. apply andb_true_iff in Ha as [Hp Ht].
  destruct (ex_pool (w_ex w) (act_pool a)) as [p|]; [|discriminate]. exists p. split; [reflexivity|]. split; [auto|].
  destruct (ex_twap (w_ex w) !! act_pool a); [discriminate|]. split; [reflexivity|]. intros v E. rewrite E in Hv. rewrite forallb_forall in Hv. apply Forall_forall. intros x Hx.
  apply elem_of_list_In, Hv in Hx. apply andb_true_iff in Hx as [A B]. now rewrite !N.leb_le in *.
Qed.
Definition no_degen_checked (w : World) (l : list Action) : bool :=
  forallb (fun a => match ex_pool (w_ex w) (act_pool a) with Some p => match pl_kind p with STABLE_SWAP KDegen => false | _ => true end | None => true end) l.
Lemma no_degen_checked_sound w l skip : no_degen_checked w l = true -> no_refresh w l skip.
Proof.
  intros H. right. unfold no_degen_checked in H. rewrite forallb_forall in H. intros a p Ha Hp Hk. apply elem_of_list_In, H in Ha. rewrite Hp, Hk in Ha. discriminate.
Qed.
Definition ch_account : Account := default ac_new (ex_account (w_ex w_chain) "bo").
Lemma w_chain_ready : ready w_chain (env 200 "bo" 1) "bo".
Proof.
  assert (E1 : ex_self (w_ex w_chain) = "ref"%string) by (vm_compute; reflexivity).
  assert (E2 : w_now w_chain = 110) by (vm_compute; reflexivity). unfold ready. rewrite E1, E2. clear E1 E2. split; [reflexivity|]. split; [reflexivity|].
  split; [apply String.eqb_neq; reflexivity|]. split; [vm_compute; split; [discriminate|reflexivity]|vm_compute; reflexivity].
Qed.
Lemma ch_u128 : Forall act_u128 ch_actions.
Proof. constructor; [vm_compute; reflexivity|]. constructor; [exact I|constructor]. Qed.
Example C93_ex :
  w_start w_fresh /\ sound_start w_fresh /\ w_reach w_fresh w_chain /\ chain_open w_fresh w_chain ch_actions /\ no_refresh w_chain ch_actions false /\
  w_flights w_chain !! 7 = Some (Arriving "a" "bo" 1000 ch_message) /\ Forall act_u128 ch_actions /\ explicit ch_actions /\ ready w_chain (env 200 "bo" 1) "bo" /\
  ex_account (w_ex w_chain) "bo" = Some ch_account /\ ac_legacy ch_account = ∅ /\ held_by (w_ex w_chain) "bo" "a" = 50000 /\
  room_for (w_ex w_chain) "bo" (map act_out ch_actions) /\
  (map_to_list <$> v_predict_swap_actions (w_ex w_chain) 200 {["a"%string := 1000]} ch_actions) = Some [("a"%string, 787)].
Proof.
  split; [apply w_fresh_start|]. split; [apply fresh_sound|]. split; [apply w_chain_reach|].
  split; [apply chain_checked_sound; [apply w_chain_standard|vm_compute; reflexivity]|]. split; [apply no_degen_checked_sound; vm_compute; reflexivity|].
  split; [vm_compute; reflexivity|]. split; [apply ch_u128|]. split; [exact I|]. split; [apply w_chain_ready|].
  split; [unfold ch_account; apply (run_default ac_new (ex_account (w_ex w_chain) "bo")); vm_compute; reflexivity|].
  split; [vm_compute; reflexivity|]. split; [vm_compute; reflexivity|].
  split; [exists ch_account; split; [unfold ch_account; apply (run_default ac_new (ex_account (w_ex w_chain) "bo")); vm_compute; reflexivity|vm_compute; discriminate]|].
  vm_compute. reflexivity.
Qed.

(** alice sends 4000 a, of which 1000 are sold in the first pool and the rest goes, with the proceeds, to the second pool *)
Definition zap_actions : list Action := [ASwap 0 "a" (Some 1000) "b" 1].
Definition zap_infos : list AddInfo := [mkAddInfo 1 [1500; 500] (Some [1; 1]) None].
Definition zap_message : TokenMsg := MsgHotZap None zap_actions zap_infos false.
Definition zap_events : list Event := ch_events ++ [EvArrive "a" "al" 4000 zap_message].
Definition w_zap : World := default w_fresh (w_run w_fresh zap_events).
Lemma w_zap_runs : w_run w_fresh zap_events = Some w_zap.
Proof. apply run_default. vm_compute. reflexivity. Qed.
Lemma w_zap_reach : w_reach w_fresh w_zap.
Proof. eapply w_run_reach; [constructor|exact w_zap_runs]. Qed.
Lemma w_zap_standard t : standard t w_fresh w_zap.
Proof. split; [eapply w_run_backed; [|constructor|exact w_zap_runs]; reflexivity|apply simple_exact; vm_compute; reflexivity]. Qed.
Definition zap_account : Account := default ac_new (ex_account (w_ex w_zap) "al").
Definition zap_answer : list Prediction * gmap AccountId N :=
  default ([], ∅) (default None (v_predict_hot_zap (w_ex w_zap) 200 None (Some "al"%string) "a" 4000 zap_actions zap_infos)).
Example C93_zap_ex :
  w_reach w_fresh w_zap /\ chain_open w_fresh w_zap zap_actions /\ no_refresh w_zap zap_actions false /\
  w_flights w_zap !! 8 = Some (Arriving "a" "al" 4000 zap_message) /\ Forall act_u128 zap_actions /\ ex_referral (w_ex w_zap) None = None /\
  ex_account (w_ex w_zap) "al" = Some zap_account /\ ac_legacy zap_account = ∅ /\
  (ac_storage_usage zap_account + new_entries zap_account ["a"; "b"] * (148 * 10 ^ 19) + e_grow (env 200 "a" 0) <=? ac_near zap_account) = true /\
  v_predict_hot_zap (w_ex w_zap) 200 None (Some "al"%string) "a" 4000 zap_actions zap_infos = Some (Some zap_answer) /\
  fst zap_answer = [mkPrediction [450; 500] (4990 * 10 ^ 18)] /\ map_to_list (snd zap_answer) = [("b"%string, 385); ("a"%string, 2550)] /\
  Forall2 (accepts (w_ex w_zap)) zap_infos (fst zap_answer).
Proof.
  split; [apply w_zap_reach|].
  split; [apply chain_checked_sound; [apply w_zap_standard|vm_compute; reflexivity]|]. split; [apply no_degen_checked_sound; vm_compute; reflexivity|].
  split; [vm_compute; reflexivity|]. split; [constructor; [vm_compute; reflexivity|constructor]|]. split; [vm_compute; reflexivity|].
  split; [unfold zap_account; apply (run_default ac_new (ex_account (w_ex w_zap) "al")); vm_compute; reflexivity|].
  split; [vm_compute; reflexivity|]. split; [vm_compute; reflexivity|]. split; [vm_compute; reflexivity|].
  assert (E : fst zap_answer = [mkPrediction [450; 500] (4990 * 10 ^ 18)]) by (vm_compute; reflexivity).
  split; [exact E|]. split; [vm_compute; reflexivity|]. rewrite E. constructor; [|constructor]. unfold accepts. cbn [ai_pool].
  assert (K : match ex_pool (w_ex w_zap) 1 with Some (PSimple _) => true | _ => false end = true) by (vm_compute; reflexivity).
  destruct (ex_pool (w_ex w_zap) 1) as [[s|s]|]; [|discriminate|discriminate]. clear K. exists [1; 1]. split; [reflexivity|].
  intros [|[|i]] x m; cbn [pr_need lookup list_lookup]; intros Hx Hm; [injection Hx as <-; injection Hm as <-; vm_compute; discriminate..|discriminate].
Qed.
