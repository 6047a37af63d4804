(** * Specification vocabulary for simple pools.
    Nothing here depends on how the pool computes; it only names the observable state and the
    pool's public operations. *)
From Verif Require Import Base SimplePool.

(** The reserve of token [t] shown by get_pool: the entry of [amounts] beside [t]. *)
Fixpoint lookup_beside (t : AccountId) (ts : list AccountId) (xs : list N) : option N :=
  match ts, xs with
  | t' :: ts', x :: xs' => if String.eqb t' t then Some x else lookup_beside t ts' xs'
  | _, _ => None
  end.
Definition sp_reserve (p : SimplePool) (t : AccountId) : N :=
  default 0 (lookup_beside t (sp_tokens p) (sp_amounts p)).

(** LP shares of an account, shown by get_pool_shares. *)
Definition sp_share_of (p : SimplePool) (a : AccountId) : N := default 0 (sp_shares p !! a).

(** Every operation that can change a simple pool. *)
Inductive sp_op :=
| SwapOp (token_in : AccountId) (amount_in : N) (token_out : AccountId) (min_out : N) (f : AdminFees)
| SwapByOutputOp (token_in : AccountId) (amount_out : N) (token_out : AccountId) (max_in : option N) (f : AdminFees)
| AddOp (sender : AccountId) (amounts : list N)
| RemoveOp (sender : AccountId) (shares : N) (min_amounts : list N)
| TransferOp (sender receiver : AccountId) (amount : N)
| RegisterOp (a : AccountId)
| UnregisterOp (a : AccountId)
| SetFeeOp (fee : N).

(** Executing one operation; [None] when it panics. *)
Definition sp_exec (p : SimplePool) (o : sp_op) : option SimplePool :=
  match o with
  | SwapOp ti a to mn f => fst <$> sp_swap p ti a to mn f false
  | SwapByOutputOp ti a to mx f => fst <$> sp_swap_by_output p ti a to mx f false
  | AddOp s am => (fun r => fst (fst r)) <$> sp_add_liquidity p s am false
  | RemoveOp s sh mn => fst <$> sp_remove_liquidity p s sh mn false
  | TransferOp s r a => sp_share_transfer p s r a
  | RegisterOp a => sp_share_register p a
  | UnregisterOp a => sp_share_unregister p a
  | SetFeeOp fee => if fee <? FEE_DIVISOR then Some (sp_modify_total_fee p fee) else None
  end.

(** Pools reachable from creation with two different tokens (the contract checks for duplicates
    before calling [new]) by any sequence of successful operations. *)
Inductive sp_reachable : SimplePool -> Prop :=
| sp_reach_new tokens fee p : NoDup tokens -> sp_new tokens fee = Some p -> sp_reachable p
| sp_reach_step p o p' : sp_reachable p -> sp_exec p o = Some p' -> sp_reachable p'.

(** Running a list of operations, all of which must succeed. *)
Fixpoint sp_run (p : SimplePool) (os : list sp_op) : option SimplePool :=
  match os with [] => Some p | o :: r => p' ← sp_exec p o; sp_run p' r end.

Definition is_trade (o : sp_op) : Prop :=
  match o with SwapOp _ _ _ _ _ | SwapByOutputOp _ _ _ _ _ => True | _ => False end.
Definition is_liquidity_op (o : sp_op) : Prop :=
  match o with AddOp _ _ | RemoveOp _ _ _ => True | _ => False end.

(** A trader's purse: what the trader holds of each token (may go negative: credit). *)
Definition purse := AccountId -> Z.
Definition purse_add (w : purse) (t : AccountId) (d : Z) : purse :=
  fun t' => if String.eqb t t' then (w t' + d)%Z else w t'.

(** A trader executing a list of trades; every trade pays [in] and receives [out]. *)
Inductive trader_run : SimplePool -> purse -> list sp_op -> SimplePool -> purse -> Prop :=
| run_nil p w : trader_run p w [] p w
| run_swap p w ti a to mn f p1 out os p2 w2 :
    sp_swap p ti a to mn f false = Some (p1, out) ->
    trader_run p1 (purse_add (purse_add w ti (- Z.of_N a)) to (Z.of_N out)) os p2 w2 ->
    trader_run p w (SwapOp ti a to mn f :: os) p2 w2
| run_swap_by_output p w ti b to mx f p1 ain os p2 w2 :
    sp_swap_by_output p ti b to mx f false = Some (p1, ain) ->
    trader_run p1 (purse_add (purse_add w ti (- Z.of_N ain)) to (Z.of_N b)) os p2 w2 ->
    trader_run p w (SwapByOutputOp ti b to mx f :: os) p2 w2.

(** What an account would receive of token [t] for all its shares: floor (reserve * shares / supply). *)
Definition redeemable (p : SimplePool) (h t : AccountId) : N :=
  sp_reserve p t * sp_share_of p h / sp_supply p.

Definition op_sender (o : sp_op) : option AccountId :=
  match o with AddOp s _ | RemoveOp s _ _ => Some s | _ => None end.

(** [r] is the floor of the square root of [v]. *)
Definition is_floor_sqrt (v r : N) : Prop := r * r <= v < (r + 1) * (r + 1).
