(** * The pool wrapper.
    /repo/ref-exchange/src/pool.rs.
    The three variants StableSwapPool, RatedSwapPool and DegenSwapPool are one constructor, their
    kind is a field of the stable pool. *)
From Verif Require Import Base SimplePool StableMath StablePool Rates.

(** pool.rs:14-19 *)
Inductive Pool := PSimple (p : SimplePool) | PStable (p : StablePool).

(** pool.rs:23-30 kind *)
Inductive PoolKind := SIMPLE_POOL | STABLE_SWAP (k : StableKind).
Definition pl_kind (p : Pool) : PoolKind :=
  match p with PSimple _ => SIMPLE_POOL | PStable q => STABLE_SWAP (st_kind q) end.

(** pool.rs:33-40 tokens *)
Definition pl_tokens (p : Pool) : list AccountId :=
  match p with PSimple q => sp_tokens q | PStable q => st_tokens q end.

(** pool.rs:42-49 modify_total_fee *)
Definition pl_modify_total_fee (p : Pool) (fee : N) : Pool :=
  match p with PSimple q => PSimple (sp_modify_total_fee q fee) | PStable q => PStable (st_modify_total_fee q fee) end.

(** What a pool reads of the block time, stored rates and degen prices. *)
Definition pl_env (rs : RateState) (now : N) (q : StablePool) : PoolEnv := rs_pool_env rs now (st_kind q).

(** pool.rs:53-65 add_liquidity; unimplemented!() is a panic *)
Definition pl_add_liquidity (p : Pool) (sender : AccountId) (amounts : list N) (is_view : bool)
  : option (Pool * list N * N) :=
  match p with
  | PSimple q => '(q', taken, shares) ← sp_add_liquidity q sender amounts is_view; Some (PSimple q', taken, shares)
  | PStable _ => None
  end.

(** pool.rs:67-81 add_stable_liquidity *)
Definition pl_add_stable_liquidity (p : Pool) (rs : RateState) (now : N) (sender : AccountId) (amounts : list N)
    (min_shares : N) (f : AdminFees) (is_view : bool) : option (Pool * N) :=
  match p with
  | PSimple _ => None
  | PStable q => '(q', s) ← st_add_liquidity q (pl_env rs now q) sender amounts min_shares f is_view; Some (PStable q', s)
  end.

(** pool.rs:84-103 remove_liquidity *)
Definition pl_remove_liquidity (p : Pool) (sender : AccountId) (shares : N) (mins : list N) (is_view : bool)
  : option (Pool * list N) :=
  match p with
  | PSimple q => '(q', l) ← sp_remove_liquidity q sender shares mins is_view; Some (PSimple q', l)
  | PStable q => '(q', l) ← st_remove_by_shares q sender shares mins is_view; Some (PStable q', l)
  end.

(** pool.rs:106-126 remove_liquidity_by_tokens *)
Definition pl_remove_by_tokens (p : Pool) (rs : RateState) (now : N) (sender : AccountId) (amounts : list N)
    (max_burn : N) (f : AdminFees) (is_view : bool) : option (Pool * N) :=
  match p with
  | PSimple _ => None
  | PStable q => '(q', s) ← st_remove_by_tokens q (pl_env rs now q) sender amounts max_burn f is_view; Some (PStable q', s)
  end.

(** pool.rs:129-136 get_share_decimal *)
Definition pl_share_decimal (p : Pool) : N :=
  match p with PSimple _ => 24 | PStable q => match st_kind q with KStable => 18 | _ => 24 end end.

(** pool.rs:182-205 swap *)
Definition pl_swap (p : Pool) (rs : RateState) (now : N) (token_in : AccountId) (amount_in : N)
    (token_out : AccountId) (min_out : N) (f : AdminFees) (is_view : bool) : option (Pool * N) :=
  match p with
  | PSimple q => '(q', o) ← sp_swap q token_in amount_in token_out min_out f is_view; Some (PSimple q', o)
  | PStable q => '(q', o) ← st_swap q (pl_env rs now q) token_in amount_in token_out min_out f is_view; Some (PStable q', o)
  end.

(** pool.rs:208-231 swap_by_output *)
Definition pl_swap_by_output (p : Pool) (token_in : AccountId) (amount_out : N) (token_out : AccountId)
    (max_in : option N) (f : AdminFees) (is_view : bool) : option (Pool * N) :=
  match p with
  | PSimple q => '(q', i) ← sp_swap_by_output q token_in amount_out token_out max_in f is_view; Some (PSimple q', i)
  | PStable _ => None
  end.

(** pool.rs:233-240 share_total_balance, 242-249 share_balances *)
Definition pl_supply (p : Pool) : N := match p with PSimple q => sp_supply q | PStable q => st_supply q end.
Definition pl_share_balance (p : Pool) (a : AccountId) : N :=
  match p with PSimple q => sp_share_balance_of q a | PStable q => st_share_balance_of q a end.

(** pool.rs:251-258 share_transfer, 261-268 share_has_registered, 270-277 share_register, 279-286 share_unregister *)
Definition pl_share_transfer (p : Pool) (sender receiver : AccountId) (amount : N) : option Pool :=
  match p with
  | PSimple q => PSimple <$> sp_share_transfer q sender receiver amount
  | PStable q => PStable <$> st_share_transfer q sender receiver amount
  end.
Definition pl_share_has_registered (p : Pool) (a : AccountId) : bool :=
  match p with PSimple q => sp_share_has_registered q a | PStable q => st_share_has_registered q a end.
Definition pl_share_register (p : Pool) (a : AccountId) : option Pool :=
  match p with PSimple q => PSimple <$> sp_share_register q a | PStable q => PStable <$> st_share_register q a end.
Definition pl_share_unregister (p : Pool) (a : AccountId) : option Pool :=
  match p with PSimple q => PSimple <$> sp_share_unregister q a | PStable q => PStable <$> st_share_unregister q a end.

(** pool.rs:374-385 assert_tvl_not_exceed_limit; the argument is the stored limit *)
Definition pl_assert_tvl (p : Pool) (rs : RateState) (now : N) (limit : option N) : option unit :=
  match p, limit with
  | PStable q, Some lim =>
      match st_kind q with
      | KDegen => tvl ← st_get_tvl q (pl_env rs now q); ensure (tvl <=? lim)
      | _ => Some tt
      end
  | _, _ => Some tt
  end.

(** owner.rs:313-336 stable_swap_ramp_amp body, 338-351 stop *)
Definition pl_ramp (p : Pool) (rs : RateState) (now future_amp future_time : N) : option Pool :=
  match p with
  | PSimple _ => None
  | PStable q => PStable <$> st_ramp_amplification q (pl_env rs now q) future_amp future_time
  end.
Definition pl_stop_ramp (p : Pool) (rs : RateState) (now : N) : option Pool :=
  match p with
  | PSimple _ => None
  | PStable q => PStable <$> st_stop_ramp q (pl_env rs now q)
  end.
