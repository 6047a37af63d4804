(** * Views of pools, deposits, storage and averages; quotes at chosen rates.
    /repo/ref-exchange/src/views.rs, storage_impl.rs, shadow_actions.rs, unit_lpt_cumulative_infos.rs.
    Keys of an UnorderedMap are listed in an order that depends on the history; where a view lists them
    the order is an argument [keys].  The kind of a pool is shown as such, not as text. *)
From Verif Require Import Base SimplePool StableMath StablePool Rates Twap Account Pool Exchange Views.

(** ** Pages *)
Fixpoint indices (i : N) (k : nat) : list N := match k with O => [] | S k' => i :: indices (i + 1) k' end.
(** views.rs:396-400, 415-419, 475-479, 525-539, 596-609, 998-1009:
    (from..min(from + limit, n)).map(get) *)
Definition v_page {A} (get : N -> option A) (n from limit : N) : option (list A) :=
  e ← cadd W64 from limit;
  mapM_ get (indices from (N.to_nat (N.min e n - from))).

(** ** Pools *)
(** views.rs:84-97 PoolInfo *)
Record PoolInfo := mkPoolInfo {
  pi_kind : PoolKind;
  pi_tokens : list AccountId;
  pi_amounts : list N;
  pi_fee : N;
  pi_supply : N;
  pi_amp : N;
}.
(** views.rs:106-145 From<Pool> for PoolInfo *)
Definition pl_info (rs : RateState) (now : N) (p : Pool) : option PoolInfo :=
  match p with
  | PSimple q => Some (mkPoolInfo (pl_kind p) (sp_tokens q) (sp_amounts q) (sp_fee q) (sp_supply q) 0)
  | PStable q =>
      _ ← st_get_rates q (pl_env rs now q);   (* get_amp *)
      am ← st_get_amounts q;
      Some (mkPoolInfo (pl_kind p) (st_tokens q) am (st_fee q) (st_supply q) (st_get_amp q now))
  end.
(** views.rs:391-393 get_number_of_pools *)
Definition v_number_of_pools (c : Exchange) : N := N.of_nat (length (ex_pools c)).
(** views.rs:403-405 get_pool, 396-400 get_pools, 408-412 get_pool_by_ids *)
Definition v_get_pool (c : Exchange) (now pid : N) : option PoolInfo := p ← ex_pool c pid; pl_info (ex_rates c) now p.
Definition v_get_pools (c : Exchange) (now from limit : N) : option (list PoolInfo) :=
  v_page (v_get_pool c now) (v_number_of_pools c) from limit.
Definition v_get_pool_by_ids (c : Exchange) (now : N) (pids : list N) : option (list PoolInfo) := mapM_ (v_get_pool c now) pids.
(** views.rs:422-430 get_pool_detail_info with the conversions 194-338: decimals, balances as kept and, for rated and
    degen pools, the recorded rates *)
Definition v_get_pool_detail (c : Exchange) (now pid : N)
  : option (PoolInfo * option (list N * list N * option (list N))) :=
  p ← ex_pool c pid;
  i ← pl_info (ex_rates c) now p;
  match p with
  | PSimple _ => Some (i, None)
  | PStable q =>
      match st_kind q with
      | KStable => Some (i, Some (st_decimals q, st_c q, None))
      | _ => r ← st_get_rates q (pl_env (ex_rates c) now q); Some (i, Some (st_decimals q, st_c q, Some r))
      end
  end.
(** views.rs:415-419 get_pool_detail_infos *)
Definition v_get_pool_details (c : Exchange) (now from limit : N) :=
  v_page (v_get_pool_detail c now) (v_number_of_pools c) from limit.
(** views.rs:460-465 get_pool_volumes, 475-479 list_pool_volumes *)
Definition v_get_pool_volumes (c : Exchange) (pid : N) : option (list (N * N)) := p ← ex_pool c pid; Some (ex_volumes_of c pid p).
Definition v_list_pool_volumes (c : Exchange) (from limit : N) : option (list (list (N * N))) :=
  v_page (v_get_pool_volumes c) (v_number_of_pools c) from limit.
(** views.rs:494-500 get_pool_shares_batch *)
Definition v_get_pool_shares_batch (c : Exchange) (pids : list N) (a : AccountId) : option (list N) :=
  mapM_ (fun pid => v_get_pool_shares c pid a) pids.

(** ** Deposits *)
(** views.rs:525-539 get_tokens_paged; [keys] lists the entries of the present format *)
Definition v_get_tokens_paged (c : Exchange) (a : AccountId) (keys : list AccountId) (from limit : option N)
  : option (list (AccountId * N)) :=
  match ex_account c a with
  | Some acc =>
      let n := N.of_nat (length keys) in
      v_page (fun i => t ← keys !! N.to_nat i; x ← ac_tokens acc !! t; Some (t, x)) n (default 0 from) (default n limit)
  | None => Some []
  end.

(** ** Storage *)
(** storage_impl.rs:78-83 storage_balance_bounds (no maximum), 85-95 storage_balance_of: total and available *)
Definition v_storage_bounds : N := min_storage_usage.
Definition v_storage_balance (c : Exchange) (a : AccountId) : option (N * N) :=
  acc ← ex_account c a; Some (ac_near acc, ac_storage_available acc).
(** views.rs:629-641 get_user_storage_state: deposit and usage *)
Definition v_storage_state (c : Exchange) (a : AccountId) : option (N * N) :=
  acc ← ex_account c a; Some (ac_near acc, ac_storage_usage acc).

(** ** Averages *)
(** unit_lpt_cumulative_infos.rs:212-224 get_unit_share_twap_token_amounts *)
Definition v_twap_amounts (c : Exchange) (now pid : N) : option (option (list N)) :=
  i ← ex_twap c !! pid;
  u ← ex_unit_amounts c pid;
  twap_view i (nano_to_sec now) u (cf_interval (ex_cfg c)).
(** unit_lpt_cumulative_infos.rs:226-228 get_unit_share_token_amounts *)
Definition v_unit_amounts (c : Exchange) (pid : N) : option (list N) := u ← ex_unit_amounts c pid; u.
(** shadow_actions.rs:44-61 get_unit_lpt_assets; the result is a map, a repeated id is one entry *)
Fixpoint v_lpt_assets (c : Exchange) (now : N) (pids : list N) (m : gmap N (N * list (AccountId * N))) : option (gmap N (N * list (AccountId * N))) :=
  match pids with
  | [] => Some m
  | pid :: r =>
      o ← v_twap_amounts c now pid;
      match o with
      | Some l => p ← ex_pool c pid; v_lpt_assets c now r (<[pid := (pl_share_decimal p, zip (pl_tokens p) l)]> m)
      | None => v_lpt_assets c now r m
      end
  end.

(** ** Quotes at chosen rates *)
(** pool.rs:287-373: each exists for one kind of pools, unimplemented!() otherwise *)
Definition rated_pool (c : Exchange) (k : StableKind) (pid : N) : option StablePool :=
  p ← ex_pool c pid;
  match p with
  | PStable q =>
      match k, st_kind q with
      | KRated, KRated => Some q
      | KDegen, KDegen => Some q
      | _, _ => None
      end
  | PSimple _ => None
  end.
(** views.rs:819-834 get_rated_return ([KRated]), 837-852 get_degen_return ([KDegen]); without rates the recorded ones *)
Definition v_rated_return (c : Exchange) (now : N) (k : StableKind) (pid : N) (token_in : AccountId) (amount_in : N)
    (token_out : AccountId) (rates : option (list N)) : option N :=
  q ← rated_pool c k pid;
  st_get_rated_return q (pl_env (ex_rates c) now q) token_in amount_in token_out rates (ex_fees c).
(** views.rs:749-765 predict_add_rated_liquidity, 768-784 predict_add_degen_liquidity *)
Definition v_rated_add (c : Exchange) (now : N) (k : StableKind) (pid : N) (amounts : list N) (rates : option (list N)) : option N :=
  q ← rated_pool c k pid;
  st_predict_add q (pl_env (ex_rates c) now q) amounts rates (ex_fees c).
(** views.rs:787-800 predict_remove_rated_liquidity_by_tokens, 803-816 predict_remove_degen_liquidity_by_tokens. *)
Definition v_rated_remove (c : Exchange) (now : N) (k : StableKind) (pid : N) (amounts : list N) (rates : option (list N)) : option N :=
  q ← rated_pool c k pid;
  st_predict_remove_by_tokens q (pl_env (ex_rates c) now q) amounts rates (ex_fees c).
