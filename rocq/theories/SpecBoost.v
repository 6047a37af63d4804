(** * The boost farming contract in its environment, and the vocabulary of its properties *)
From Verif Require Import Base BaseLemmas Boost.

(** The methods anybody can call directly. *)
Inductive bcall :=
| BCreateSeed (s : SeedId) (dec : N) (mind minlock : option N)
| BCreateFarm (s : SeedId) (token : AccountId) (start daily : N)
| BCancelFarm (s : SeedId) (i : N)
| BRemoveFarm (s : SeedId) (i : N)
| BModifyBooster (b : SeedId) (info : N * gmap SeedId N)
| BModifyDaily (s : SeedId) (i daily : N)
| BModifyPolicy (dur mult : N)
| BModifyMaxFarms (n : N)
| BModifyDefaultSlash (r : N)
| BModifyMinDeposit (s : SeedId) (m : N)
| BModifyMinLock (s : SeedId) (d : N)
| BModifySlash (s : SeedId) (r : N)
| BSetOwner (o : AccountId)
| BPause
| BResume
| BExtendOps (l : list AccountId)
| BRemoveOps (l : list AccountId)
| BLockFree (s : SeedId) (dur : N) (amount : option N)
| BForceUnlock (s : SeedId) (amount : N)
| BClaim (s : SeedId)
| BStorageDeposit (acc : option AccountId)
| BStorageWithdraw
| BStorageUnregister.

(** Arguments are decoded as u32 or u128. *)
Definition decoded (x : bcall) : bool :=
  match x with
  | BCreateSeed _ d m l => (d <? W32) && (default 0 m <? W128) && (default 0 l <? W32)
  | BCreateFarm _ _ st d => (st <? W32) && (d <? W128)
  | BModifyBooster _ info => fst info <? W32
  | BModifyDaily _ _ d => d <? W128
  | BModifyPolicy d m => (d <? W32) && (m <? W32)
  | BModifyMaxFarms n => n <? W32
  | BModifyDefaultSlash r => r <? W32
  | BModifyMinDeposit _ m => m <? W128
  | BModifyMinLock _ d => d <? W32
  | BModifySlash _ r => r <? W32
  | BLockFree _ d a => (d <? W32) && (default 0 a <? W128)
  | BForceUnlock _ a => a <? W128
  | _ => true
  end.

(** The effect on the contract and the NEAR it sends. *)
Definition bcall_exec (fl : Floats) (now : N) (c : BState) (caller : AccountId) (att : N) (x : bcall)
  : option (BState * list (AccountId * N)) :=
  _ ← ensure (decoded x);
  match x with
  | BCreateSeed s d m l => c' ← create_seed c caller att s d m l; Some (c', [])
  | BCreateFarm s t st d => c' ← create_farm now c caller att s t st d; Some (c', [])
  | BCancelFarm s i => c' ← cancel_farm now c caller att s i; Some (c', [])
  | BRemoveFarm s i => c' ← remove_farm now c caller att s i; Some (c', [])
  | BModifyBooster b info => c' ← modify_booster now c caller att b info; Some (c', [])
  | BModifyDaily s i d => c' ← modify_daily now c caller att s i d; Some (c', [])
  | BModifyPolicy d m => c' ← modify_locking_policy c caller att d m; Some (c', [])
  | BModifyMaxFarms n => c' ← modify_max_farms c caller att n; Some (c', [])
  | BModifyDefaultSlash r => c' ← modify_default_slash c caller att r; Some (c', [])
  | BModifyMinDeposit s m => c' ← modify_min_deposit now c caller att s m; Some (c', [])
  | BModifyMinLock s d => c' ← modify_min_lock now c caller att s d; Some (c', [])
  | BModifySlash s r => c' ← modify_slash now c caller att s r; Some (c', [])
  | BSetOwner o => c' ← b_set_owner c caller att o; Some (c', [])
  | BPause => c' ← b_set_state c caller att false; Some (c', [])
  | BResume => c' ← b_set_state c caller att true; Some (c', [])
  | BExtendOps l => c' ← extend_operators c caller att l; Some (c', [])
  | BRemoveOps l => c' ← remove_operators c caller att l; Some (c', [])
  | BLockFree s d a => c' ← lock_free_seed fl now c caller att s d a; Some (c', [])
  | BForceUnlock s a => c' ← force_unlock fl now c caller att s a; Some (c', [])
  | BClaim s => _ ← ensure (att =? 0); c' ← claim_reward_by_seed fl now c caller s; Some (c', [])
  | BStorageDeposit acc => b_storage_deposit c caller att acc
  | BStorageWithdraw => b_storage_withdraw c caller att
  | BStorageUnregister => b_storage_unregister c caller att
  end.

(** A world: the time of the last receipt, the contract, what it holds in the token contracts (by token id,
    or seed id for MFT tokens) and its NEAR balance. *)
Record BWorld := mkBW {
  bw_now : N; bw_c : BState; bw_hold : gmap string N; bw_near : N;
}.
Inductive bevent :=
| BvCall (now : N) (caller : AccountId) (attached : N) (x : bcall)
| BvToken (now : N) (mft : bool) (asset sender : AccountId) (amount : N) (msg : BMsg)
    (* ft_transfer_call / mft_transfer_call to the contract *)
| BvGift (asset : AccountId) (amount : N).   (* a plain transfer of a token to the contract *)

Definition sent (out : list (AccountId * N)) : N := lsum out.*2.
Definition b_tick (w : BWorld) (now : N) : option unit := ensure ((bw_now w <=? now) && (now <? W64)).

(** One event; a panicking call has no effect, so it is not an event. *)
Definition bstep (fl : Floats) (w : BWorld) (e : bevent) : option BWorld :=
  match e with
  | BvCall now caller att x =>
      _ ← b_tick w now;
      '(c', out) ← bcall_exec fl now (bw_c w) caller att x;
      n ← csub (bw_near w + att) (sent out);
      Some (mkBW now c' (bw_hold w) n)
  | BvToken now mft asset sender amount msg =>
      _ ← b_tick w now; _ ← ensure (amount <? W128);
      _ ← ensure (match msg with MLock d => d <? W32 | _ => true end);
      c' ← on_transfer fl now (bw_c w) mft asset sender amount msg;
      Some (mkBW now c' (<[asset := shares_get (bw_hold w) asset + amount]> (bw_hold w)) (bw_near w))
  | BvGift asset amount =>
      Some (mkBW (bw_now w) (bw_c w) (<[asset := shares_get (bw_hold w) asset + amount]> (bw_hold w)) (bw_near w))
  end.

Definition bw_init (now : N) (owner : AccountId) (near : N) : BWorld := mkBW now (boost_new owner) ∅ near.
Inductive breach (fl : Floats) : BWorld -> Prop :=
| breach_init now owner near : breach fl (bw_init now owner near)
| breach_step w e w' : breach fl w -> bstep fl w e = Some w' -> breach fl w'.
(** a run of several events *)
Fixpoint brun (fl : Floats) (w : BWorld) (l : list bevent) : option BWorld :=
  match l with [] => Some w | e :: r => w' ← bstep fl w e; brun fl w' r end.

(** ** Vocabulary *)
(** what a farmer has staked in a seed *)
Definition staked (k : BStake) : N := k_free k + k_locked k.
(** the power of a stake: the free amount and the boosted locked amount, plus the extra of every booster *)
Definition power (fl : Floats) (k : BStake) : N :=
  k_free k + k_x k + msum (fun _ r => fl_extra fl (k_free k + k_x k) r) (k_ratios k).
Definition of_stake (h : BStake -> N) (s : SeedId) (F : BFarmer) : N :=
  match b_stakes F !! s with Some k => h k | None => 0 end.
(** sums over all farmers *)
Definition all_stakes (h : BStake -> N) (s : SeedId) (c : BState) : N :=
  msum (fun _ F => of_stake h s F) (b_farmers c).
Definition all_rewards (t : AccountId) (c : BState) : N :=
  msum (fun _ F => shares_get (b_rewards F) t) (b_farmers c).
(** what a farm still owes to a stake, in units of 10^-27 of the reward token *)
Definition due (fl : Floats) (i : N) (f : BFarm) (k : BStake) : N :=
  (bf_rps f - default 0 (k_rps k !! i)) * power fl k.
(** sums over all farms whose reward is the token [t] *)
Definition in_token (h : BFarm -> N) (t : AccountId) (f : BFarm) : N :=
  if String.eqb (bf_token f) t then h f else 0.
Definition live_farms (h : BFarm -> N) (c : BState) : N :=
  msum (fun _ sd => msum (fun _ f => h f) (bs_farms sd)) (b_seeds c).
Definition old_farms (h : BFarm -> N) (c : BState) : N := msum (fun _ f => h f) (b_outdated c).
Definition all_farms (h : BFarm -> N) (c : BState) : N := live_farms h c + old_farms h c.
(** staked tokens, and slashed tokens the owner may take *)
Definition seed_total (c : BState) (s : SeedId) : N :=
  match b_seeds c !! s with Some sd => bs_amount sd | None => 0 end.

(** "0 times a ratio, as a u128, is 0" for IEEE floats: 0 * r is 0 or NaN, and both cast to 0. *)
Definition zero_extra (fl : Floats) : Prop := forall r, fl_extra fl 0 r = 0.

(** a farmer's stake in a seed, without the boosts and the farming positions: the free and the locked amount,
    the power of the locked amount, when it unlocks and the duration of the lock *)
Definition holding (s : SeedId) (F : BFarmer) : N * N * N * N * N :=
  match b_stakes F !! s with
  | Some k => (k_free k, k_locked k, k_x k, k_unlock k, k_dur k)
  | None => (0, 0, 0, 0, 0)
  end.
