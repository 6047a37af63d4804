(** * Pool operations, and which of them an event of the exchange stands for *)
From Verif Require Import Base SimplePool SpecSimple StableMath StablePool Rates Account Pool Exchange SpecExchange SpecWorld.

(** Everything that can be done to a pool of either kind. *)
Inductive pl_op :=
| OSwap (token_in : AccountId) (amount_in : N) (token_out : AccountId) (min_out : N) (f : AdminFees)
| OSwapByOutput (token_in : AccountId) (amount_out : N) (token_out : AccountId) (max_in : option N) (f : AdminFees)
| OAdd (sender : AccountId) (amounts : list N)
| OAddStable (sender : AccountId) (amounts : list N) (min_shares : N) (f : AdminFees)
| ORemove (sender : AccountId) (shares : N) (mins : list N)
| ORemoveByTokens (sender : AccountId) (amounts : list N) (max_burn : N) (f : AdminFees)
| OTransfer (sender receiver : AccountId) (amount : N)
| ORegister (a : AccountId)
| OUnregister (a : AccountId)
| OSetFee (fee : N)
| ORamp (amp time : N)
| OStopRamp.

Definition pl_exec (rs : RateState) (now : N) (p : Pool) (o : pl_op) : option Pool :=
  match o with
  | OSwap ti x to mn f => fst <$> pl_swap p rs now ti x to mn f false
  | OSwapByOutput ti x to mx f => fst <$> pl_swap_by_output p ti x to mx f false
  | OAdd s am => (fun r => fst (fst r)) <$> pl_add_liquidity p s am false
  | OAddStable s am mn f => fst <$> pl_add_stable_liquidity p rs now s am mn f false
  | ORemove s sh mins => fst <$> pl_remove_liquidity p s sh mins false
  | ORemoveByTokens s am mx f => fst <$> pl_remove_by_tokens p rs now s am mx f false
  | OTransfer s r x => pl_share_transfer p s r x
  | ORegister a => pl_share_register p a
  | OUnregister a => pl_share_unregister p a
  | OSetFee fee => if fee <? FEE_DIVISOR then Some (pl_modify_total_fee p fee) else None
  | ORamp a t => pl_ramp p rs now a t
  | OStopRamp => pl_stop_ramp p rs now
  end.
Fixpoint pl_run (rs : RateState) (now : N) (p : Pool) (os : list pl_op) : option Pool :=
  match os with [] => Some p | o :: r => p' ← pl_exec rs now p o; pl_run rs now p' r end.

(** The exchange's part of the fees goes to its own account; a referral may get a part of it. *)
Definition charged (c : Exchange) (f : AdminFees) : Prop :=
  admin_fee_bps f = cf_admin_fee (ex_cfg c) /\ exchange_id f = ex_self c.
(** An action and the trade it stands for: the amount is the given one, or the result of the action before. *)
Definition trade_of (c : Exchange) (a : Action) (o : pl_op) : Prop :=
  match a with
  | ASwap _ ti am to mn => exists x f, charged c f /\ default x am = x /\ o = OSwap ti x to mn f
  | ASwapByOutput _ ti am to mx => exists x f, charged c f /\ default x am = x /\ o = OSwapByOutput ti x to mx f
  end.
(** The trades of a chain with one pool, in order. *)
Definition trades_with (c : Exchange) (pid : N) (l : list Action) (os : list pl_op) : Prop :=
  Forall2 (trade_of c) (filter (fun a => act_pool a = pid) l) os.

Definition hits (pid q : N) (o : pl_op) : list pl_op := if q =? pid then [o] else [].
(** What a call does to the pool [pid]. *)
Definition call_ops (c : Exchange) (e : Env) (pid : N) (x : Call) (os : list pl_op) : Prop :=
  match x with
  | CExecute l _ _ | CExecuteVa _ l _ _ | CSwap l _ _ | CSwapByOutput l _ _ => trades_with c pid l os
  | CAddLiquidity q am _ => os = hits pid q (OAdd (e_caller e) am)
  | CAddStableLiquidity q am mn => exists f, charged c f /\ os = hits pid q (OAddStable (e_caller e) am mn f)
  | CRemoveLiquidity q sh mins => os = hits pid q (ORemove (e_caller e) sh mins)
  | CRemoveByTokens q am mx => exists f, charged c f /\ os = hits pid q (ORemoveByTokens (e_caller e) am mx f)
  | CMftRegister id a => exists q, mft_pool_of id = Some q /\ os = hits pid q (ORegister a)
  | CMftUnregister id => exists q, mft_pool_of id = Some q /\ os = hits pid q (OUnregister (e_caller e))
  | CMftTransfer id r x => os = match mft_pool_of id with Some q => hits pid q (OTransfer (e_caller e) r x) | None => [] end
  | CMftTransferCall id r am => exists x, default x am = x /\
      os = match mft_pool_of id with Some q => hits pid q (OTransfer (e_caller e) r x) | None => [] end
  | CDonateShare q am unreg => exists x, default x am = x /\
      os = hits pid q (OTransfer (e_caller e) (ex_self c) x) ++ (if unreg then hits pid q (OUnregister (e_caller e)) else [])
  | CLiquidation _ victim sid x mins => exists q, shadow_id_to_pool_id sid = Some q /\ os = hits pid q (ORemove victim x mins)
  | CModifyTotalFee q fee => os = hits pid q (OSetFee fee)
  | CRemoveFeeLiquidity q sh mins => os = hits pid q (ORemove (ex_self c) sh mins)
  | CRamp q a t => os = hits pid q (ORamp a t)
  | CStopRamp q => os = hits pid q OStopRamp
  | _ => os = []
  end.
(** One liquidity step of a zap by [s]. *)
Definition zap_op (c : Exchange) (s : AccountId) (pid : N) (i : AddInfo) : list pl_op :=
  hits pid (ai_pool i)
    (match ex_pool c (ai_pool i) with
     | Some (PSimple _) => OAdd s (ai_amounts i)
     | _ => OAddStable s (ai_amounts i) (default 0 (ai_min_shares i)) (mkAdminFees (cf_admin_fee (ex_cfg c)) (ex_self c) None)
     end).
(** What tokens sent by [s] with a message do to the pool [pid]. *)
Definition message_ops (c : Exchange) (s : AccountId) (pid : N) (m : TokenMsg) (os : list pl_op) : Prop :=
  match m with
  | MsgDeposit => os = []
  | MsgExecute _ l _ _ _ _ => trades_with c pid l os
  | MsgHotZap _ l infos _ => exists os1, trades_with c pid l os1 /\ os = os1 ++ flat_map (zap_op c s pid) infos
  end.
Definition event_ops (w : World) (ev : Event) (pid : N) (os : list pl_op) : Prop :=
  match ev with
  | EvCall e x => call_ops (w_ex w) e pid x os
  | EvNotify id _ => exists t s x m, w_flights w !! id = Some (Arriving t s x m) /\ (os = [] \/ message_ops (w_ex w) s pid m os)
  | EvFake _ s _ m => message_ops (w_ex w) s pid m os
  | EvMftResolve id _ _ => exists tid s r x, w_flights w !! id = Some (Leaving (PMft tid s r x)) /\
      (os = [] \/ exists q to y, mft_pool_of tid = Some q /\ (to = s \/ to = ex_self (w_ex w)) /\ y <= x /\ os = hits pid q (OTransfer r to y))
  | _ => os = []
  end.

(** The root of the product of a simple pool's reserves, rounded down. *)
Definition sp_root (p : SimplePool) : N := N.sqrt (foldr N.mul 1 (sp_amounts p)).
(** How many times an event may add or remove liquidity of the pool. *)
Definition changes_liquidity (o : pl_op) : bool := match o with OAdd _ _ | ORemove _ _ _ => true | _ => false end.
Definition changes (w : World) (ev : Event) : N :=
  let zaps m := match m with MsgHotZap _ _ infos _ => N.of_nat (length infos) | _ => 0 end in
  match ev with
  | EvCall _ (CAddLiquidity _ _ _) | EvCall _ (CRemoveLiquidity _ _ _) | EvCall _ (CRemoveFeeLiquidity _ _ _) | EvCall _ (CLiquidation _ _ _ _ _) => 1
  | EvNotify id _ => match w_flights w !! id with Some (Arriving _ _ _ m) => zaps m | _ => 0 end
  | EvFake _ _ _ m => zaps m
  | _ => 0
  end.
(** Events with a number of liquidity changes, during which the supply of the simple pool [pid] is never below [m]. *)
Definition supply_at (c : Exchange) (pid : N) : N := match ex_pool c pid with Some p => pl_supply p | None => 0 end.
Inductive above (pid m : N) (w : World) : World -> N -> Prop :=
| above_start : m <= supply_at (w_ex w) pid -> above pid m w w 0
| above_step w1 n ev w2 : above pid m w w1 n -> w_step w1 ev = Some w2 -> m <= supply_at (w_ex w2) pid -> above pid m w w2 (n + changes w1 ev).
