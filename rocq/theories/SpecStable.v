(** * Specification vocabulary for stable, rated and degen pools.
    Nothing here depends on how the pool computes; it only names the observable state and the
    pool's public operations. *)
From Verif Require Import Base SimplePool SpecSimple StableMath StablePool.

(** A balance kept with [target] decimals, in units of a token with [d] decimals: rounded down
    when the token has fewer decimals, exact when it has more. *)
Definition in_token_units (target d c : N) : N :=
  if d <=? target then c / 10 ^ (target - d) else c * 10 ^ (d - target).

(** The decimals with which a pool of the kind keeps all its balances. *)
Definition kept_decimals (k : StableKind) : N := match k with KStable => 18 | KRated | KDegen => 24 end.

(** The entry of a vector beside token [t]. *)
Definition beside (t : AccountId) (ts : list AccountId) (xs : list N) : N := default 0 (lookup_beside t ts xs).

(** The recorded balance of token [t] (kept decimals). *)
Definition st_kept (p : StablePool) (t : AccountId) : N := beside t (st_tokens p) (st_c p).
(** Decimals of token [t]. *)
Definition st_dec (p : StablePool) (t : AccountId) : N := beside t (st_tokens p) (st_decimals p).
(** The reserve of token [t] shown by get_pool, in units of the token. *)
Definition st_reserve (p : StablePool) (t : AccountId) : N :=
  in_token_units (kept_decimals (st_kind p)) (st_dec p t) (st_kept p t).

Definition st_share_of (p : StablePool) (a : AccountId) : N := default 0 (st_shares p !! a).

(** Every operation that can change such a pool. *)
Inductive st_op :=
| StAdd (sender : AccountId) (amounts : list N) (min_shares : N) (f : AdminFees)
| StRemoveShares (sender : AccountId) (shares : N) (min_amounts : list N)
| StRemoveTokens (sender : AccountId) (amounts : list N) (max_burn : N) (f : AdminFees)
| StSwap (token_in : AccountId) (amount_in : N) (token_out : AccountId) (min_out : N) (f : AdminFees)
| StTransfer (sender receiver : AccountId) (amount : N)
| StRegister (a : AccountId)
| StUnregister (a : AccountId)
| StSetFee (fee : N)
| StRamp (future_amp future_time : N)
| StStopRamp.

Definition st_exec (p : StablePool) (e : PoolEnv) (o : st_op) : option StablePool :=
  match o with
  | StAdd s am mn f => fst <$> st_add_liquidity p e s am mn f false
  | StRemoveShares s sh mn => fst <$> st_remove_by_shares p s sh mn false
  | StRemoveTokens s am mx f => fst <$> st_remove_by_tokens p e s am mx f false
  | StSwap ti a to mn f => fst <$> st_swap p e ti a to mn f false
  | StTransfer s r a => st_share_transfer p s r a
  | StRegister a => st_share_register p a
  | StUnregister a => st_share_unregister p a
  | StSetFee fee => if fee <? FEE_DIVISOR then Some (st_modify_total_fee p fee) else None
  | StRamp a t => st_ramp_amplification p e a t
  | StStopRamp => st_stop_ramp p e
  end.

(** Pools reachable from creation (the contract checks for duplicate tokens and equal lengths
    before calling [new]) by any sequence of successful operations at non-decreasing times, with
    arbitrary rates; the index is the time of the last operation.  Timestamps are u64. *)
Inductive st_reachable : N -> StablePool -> Prop :=
| st_reach_new now k tokens decimals amp fee p :
    NoDup tokens -> length tokens = length decimals -> now < 2 ^ 64 ->
    st_new k tokens decimals amp fee = Some p -> st_reachable now p
| st_reach_step now p e o p' :
    st_reachable now p -> now <= pe_now e -> pe_now e < 2 ^ 64 ->
    st_exec p e o = Some p' -> st_reachable (pe_now e) p'.

(** Running a list of operations, each in its environment, all of which must succeed. *)
Fixpoint st_run (p : StablePool) (os : list (PoolEnv * st_op)) : option StablePool :=
  match os with [] => Some p | (e, o) :: r => p' ← st_exec p e o; st_run p' r end.

(** The StableSwap curve as the contract fixes it for a trade: with invariant [D], amplification
    [A], [n] tokens, [x] the new balance of the incoming token and [zs] the balances of the tokens
    not involved, the balance [y] of the outgoing token is on the curve when
    [y^2 + (b - D) y = c] with [b = x + sum zs + D / (A n^n)] and
    [c = D^(n+1) / (n^n * x * prod zs * A n^n)], divisions rounding down one after the other. *)
Definition curve_b (A n D x : N) (zs : list N) : N :=
  D / (A * n ^ n) + (foldl N.add x zs).
Definition curve_c (A n D x : N) (zs : list N) : N :=
  (foldl (fun c z => c * D / z) (D * D / x) zs) * D / (A * n ^ n * n ^ n).
Definition on_or_above_curve (A n D x : N) (zs : list N) (y : N) : Prop :=
  (Z.of_N (curve_c A n D x zs) <=
     Z.of_N y * Z.of_N y + (Z.of_N (curve_b A n D x zs) - Z.of_N D) * Z.of_N y)%Z.

(** The vector without the entries at positions [i] and [j]. *)
Fixpoint others_from (k i j : nat) (xs : list N) : list N :=
  match xs with
  | [] => []
  | x :: r => if (k =? i)%nat || (k =? j)%nat then others_from (S k) i j r else x :: others_from (S k) i j r
  end.
Definition others (i j : nat) (xs : list N) : list N := others_from 0 i j xs.

(** What happens to a pool over time: any sequence of successful operations at non-decreasing
    times, from pool [p] at time [now] to pool [p'] at time [now']. *)
Inductive st_history : N -> StablePool -> N -> StablePool -> Prop :=
| st_hist_refl now p : st_history now p now p
| st_hist_step now p now1 p1 e o p2 :
    st_history now p now1 p1 -> now1 <= pe_now e -> pe_now e < 2 ^ 64 ->
    st_exec p1 e o = Some p2 -> st_history now p (pe_now e) p2.

(** One day in nanoseconds. *)
Definition DAY : N := 86400 * 10 ^ 9.

(** The invariant D of the pool for given rates, as the contract computes it. *)
Definition st_D (p : StablePool) (now : N) (rates c_amounts : list N) : option N :=
  compute_d_with_rates (st_curve p now rates) c_amounts.

(** A raw amount of a token with [d] decimals in kept decimals. *)
Definition in_kept_units (target d a : N) : N :=
  if d <=? target then a * 10 ^ (target - d) else a / 10 ^ (d - target).
