(** * Who may do what: privileged calls, fees and curve parameters of pools, what is registered with the oracles *)
From Verif Require Import Base BaseLemmas SimplePool StablePool SpecStable Rates Echo Account Pool Exchange SpecExchange SpecWorld.

(** Calls for the owner and the guardians. *)
Definition privileged (x : Call) : bool :=
  match x with
  | CAddStablePool _ _ _ _ _ | CRegisterTwap _ | CUnregisterTwap _ | CModifyInterval _ | CSetOwner _ | CRetrieve _ _
  | CExtendGuardians _ | CRemoveGuardians _ | CExtendPostfix _ | CRemovePostfix _ | CModifyFarm _ | CModifyBurrow _ | CModifyWnear _
  | CChangeState _ | CExtendWhitelist _ | CRemoveWhitelist _ | CExtendFrozen _ | CRemoveFrozen _
  | CInsertReferral _ _ | CUpdateReferral _ _ | CRemoveReferral _ | CModifyAdminFee _ | CModifyTotalFee _ _
  | CRemoveFeeLiquidity _ _ _ | CWithdrawOwner _ _ _ | CRamp _ _ _ | CStopRamp _ | CRateAdmin _
  | CAddLimit _ _ | CUpdateLimit _ _ | CRemoveLimit _ | CExtendEcho _ _ | CRemoveEcho _ _ => true
  | _ => false
  end.
(** Those for the owner alone. *)
Definition for_owner (x : Call) : bool :=
  match x with
  | CSetOwner _ | CRetrieve _ _ | CExtendGuardians _ | CRemoveGuardians _ | CModifyWnear _ | CModifyAdminFee _
  | CUpdateLimit _ _ | CRemoveLimit _ | CRemoveEcho _ _ => true
  | CRateAdmin a =>
      match a with UnregisterRate _ | UpdateDegen _ _ | UnregisterDegen _ | UnregisterConfig _ | UpdateConfig _ => true | _ => false end
  | _ => false
  end.
Definition trusted (c : Exchange) (a : AccountId) : Prop := a = cf_owner (ex_cfg c) \/ a ∈ cf_guardians (ex_cfg c).

(** Fee and curve of a pool. *)
Definition pl_params (p : Pool) : N * (N * N * N * N) :=
  match p with
  | PSimple q => (sp_fee q, (0, 0, 0, 0))
  | PStable q => (st_fee q, (st_init_amp q, st_target_amp q, st_init_time q, st_stop_time q))
  end.
Definition params_kept (c c' : Exchange) : Prop :=
  forall pid p, ex_pool c pid = Some p -> exists p', ex_pool c' pid = Some p' /\ pl_params p' = pl_params p.
(** What the oracles are asked: which tokens, from which contract or source, with which settings. *)
Definition asked (s : RateState) : gmap AccountId (RateKind * AccountId) * gmap AccountId DegenSrc * option PriceOracleConfig * option PythOracleConfig :=
  ((fun r => (rt_kind r, rt_contract r)) <$> rs_rates s, dg_src <$> rs_degens s, rs_price_cfg s, rs_pyth_cfg s).

(** No call of this event is by a trusted account of [c0]. *)
Definition by_others (c0 : Exchange) (ev : Event) : Prop := match ev with EvCall e _ => ~ trusted c0 (e_caller e) | _ => True end.
(** Settings, fees, curves and what is registered with the oracles are the same. *)
Definition governed (c c' : Exchange) : Prop := ex_cfg c' = ex_cfg c /\ params_kept c c' /\ asked (ex_rates c') = asked (ex_rates c).

(** Calls that a pause stops: everything else is a setting of the owner or the guardians, the creation of stable pools by
    them, the synchronisation of averages, or a liquidation by the lending contract. *)
Definition stops_when_paused (x : Call) : bool :=
  match x with
  | CSyncTwap _ | CLiquidation _ _ _ _ _ => false
  | CRemoveFeeLiquidity _ _ _ | CWithdrawOwner _ _ _ => true
  | _ => negb (privileged x)
  end.
(** Reserves and supply of every pool are the same and no pool was added. *)
Definition pools_still (c c' : Exchange) : Prop :=
  length (ex_pools c') = length (ex_pools c) /\
  forall pid p, ex_pool c pid = Some p -> exists p', ex_pool c' pid = Some p' /\ (forall t, pl_reserve p' t = pl_reserve p t) /\ pl_supply p' = pl_supply p.

(** The pool contains the token; the actions name it. *)
Definition in_pool (c : Exchange) (pid : N) (t : AccountId) : Prop := exists p, ex_pool c pid = Some p /\ t ∈ pl_tokens p.
Definition named (l : list Action) (t : AccountId) : Prop := exists a, a ∈ l /\ (act_in a = t \/ act_out a = t).
(** Calls about token [t]: swaps naming it, liquidity of pools containing it, withdrawals and claims of it. *)
Definition involves (c : Exchange) (x : Call) (t : AccountId) : Prop :=
  match x with
  | CExecute l _ _ | CExecuteVa _ l _ _ | CSwap l _ _ | CSwapByOutput l _ _ => named l t
  | CAddLiquidity pid _ _ | CAddStableLiquidity pid _ _ | CRemoveLiquidity pid _ _ | CRemoveByTokens pid _ _ => in_pool c pid t
  | CLiquidation _ _ sid _ _ => exists pid, shadow_id_to_pool_id sid = Some pid /\ in_pool c pid t
  | CWithdraw u _ _ _ | CClaimLostfound u => u = t
  | _ => False
  end.
(** Incoming tokens [u] whose message is about [t]: plain deposits, swaps naming it, zaps into pools containing it. *)
Definition arrives_about (c : Exchange) (u : AccountId) (m : TokenMsg) (t : AccountId) : Prop :=
  match m with
  | MsgDeposit => u = t
  | MsgExecute _ l _ _ _ _ => named l t
  | MsgHotZap _ l infos _ => named l t \/ exists i, i ∈ infos /\ in_pool c (ai_pool i) t
  end.
(** Calls that move [t] without looking at the list of frozen tokens: transfers between deposits, donations, and what
    the owner and the guardians take out. *)
Definition unchecked (c : Exchange) (x : Call) (t : AccountId) : Prop :=
  match x with
  | CMftTransfer u _ _ | CMftTransferCall u _ _ | CDonateToken u _ _ | CWithdrawOwner u _ _ => u = t
  | CRemoveFeeLiquidity pid _ _ => in_pool c pid t
  | _ => False
  end.
(** Nobody's deposit, no reserve and no lost-and-found entry of [t] changed. *)
Definition reserve_at (c : Exchange) (pid : N) (t : AccountId) : N := match ex_pool c pid with Some p => pl_reserve p t | None => 0 end.
Definition untouched (t : AccountId) (c c' : Exchange) : Prop :=
  (forall a, held_by c' a t = held_by c a t) /\ (forall pid, reserve_at c' pid t = reserve_at c pid t) /\
  (forall a, lost_of c' a t = lost_of c a t).
(** What only the owner decides: owner, guardians, wNEAR, the protocol's share of fees, resuming, lowering or raising the
    limits of degen pools, shortening the lists of clients, what the oracles are once they are registered. *)
Definition owners_kept (c c' : Exchange) : Prop :=
  let k := ex_cfg c in let k' := ex_cfg c' in
  (cf_owner k' = cf_owner k /\ cf_guardians k' = cf_guardians k /\ cf_wnear k' = cf_wnear k /\ cf_admin_fee k' = cf_admin_fee k) /\
  (cf_running k' = true -> cf_running k = true) /\
  (forall pid x, cf_limits k !! pid = Some x -> cf_limits k' !! pid = Some x) /\
  (el_tokens (cf_echo k) ⊆ el_tokens (cf_echo k') /\ el_senders (cf_echo k) ⊆ el_senders (cf_echo k') /\ el_secure (cf_echo k) ⊆ el_secure (cf_echo k')) /\
  (forall t r, rs_rates (ex_rates c) !! t = Some r -> exists r', rs_rates (ex_rates c') !! t = Some r' /\ rt_contract r' = rt_contract r) /\
  (forall t d, rs_degens (ex_rates c) !! t = Some d -> exists d', rs_degens (ex_rates c') !! t = Some d' /\ dg_src d' = dg_src d) /\
  (forall p, rs_price_cfg (ex_rates c) = Some p -> rs_price_cfg (ex_rates c') = Some p) /\
  (forall p, rs_pyth_cfg (ex_rates c) = Some p -> rs_pyth_cfg (ex_rates c') = Some p).
