(** * Leaving the exchange: what a user needs to take their property out *)
From Verif Require Import Base SimplePool StableMath StablePool SpecStable Account Pool Exchange SpecExchange SpecWorld SpecHistory SpecRecords.

(** [a] makes a call with one yocto attached, at a possible time, while the exchange is running. *)
Definition ready (w : World) (e : Env) (a : AccountId) : Prop :=
  e_caller e = a /\ e_attached e = 1 /\ a <> ex_self (w_ex w) /\ w_now w <= e_now e < 2 ^ 64 /\
  cf_running (ex_cfg (w_ex w)) = true.
Definition frozen (w : World) (t : AccountId) : Prop := t ∈ cf_frozen (ex_cfg (w_ex w)).
(** Token [t] has always been standard and every pool keeps it exactly. *)
Definition standard (t : AccountId) (w0 w : World) : Prop := w_backed t w0 w /\ exact_token (w_ex w) t.
(** The call succeeds and schedules a transfer of [n] of [t] to [a]; the exchange has the tokens, so that
    the token contract can execute it, after which the exchange holds [n] less. *)
Definition pays (w : World) (e : Env) (x : Call) (a t : AccountId) (n : N) (w2 : World) : Prop :=
  exists w1 p, w_step w (EvCall e x) = Some w1 /\
    w_flights w1 !! w_next w = Some (Leaving p) /\ transfers p = Some (t, a, n) /\
    w_step w1 (EvRemote (w_next w) true n) = Some w2 /\ w_hold w2 t + n = w_hold w t.

(** Shares of [a] in pool [pid] that are staked nowhere. *)
Definition free_shares (c : Exchange) (pid : N) (a : AccountId) : N :=
  shares_at c pid a - N.max (farm_at c pid a) (burrow_at c pid a).
(** The least balance a stable pool keeps when shares are redeemed. *)
Definition least_left (p : Pool) : N := match p with PSimple _ => 0 | PStable q => min_reserve (st_kind q) end.
Definition balances (p : Pool) : list N := match p with PSimple q => sp_amounts q | PStable q => st_c q end.
(** Redeeming [s] shares leaves enough of every token. *)
Definition leaves_enough (p : Pool) (s : N) : Prop :=
  Forall (fun r => least_left p <= r - r * s / pl_supply p) (balances p).
(** What [s] shares are worth, in units of the tokens. *)
Definition worth (p : Pool) (s : N) : list N :=
  match p with
  | PSimple q => (fun r => r * s / sp_supply q) <$> sp_amounts q
  | PStable q => zip_with (fun d c => in_units (kept_decimals (st_kind q)) d (c * s / st_supply q)) (st_decimals q) (st_c q)
  end.
(** Entries an account still has to pay for, so that it can hold the tokens. *)
Definition new_entries (acc : Account) (ts : list AccountId) : N :=
  N.of_nat (length (filter (fun t => ac_tokens acc !! t = None) ts)).
Definition room_for (c : Exchange) (a : AccountId) (ts : list AccountId) : Prop :=
  exists acc, ex_account c a = Some acc /\ ac_storage_usage acc + new_entries acc ts * (148 * 10 ^ 19) <= ac_near acc.
