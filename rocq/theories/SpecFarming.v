(** * The farming contract in its environment, and the vocabulary of the farming properties

    A world is the contract, the balances the contract has in the (honest, NEP-141/245 conforming)
    token contracts, and the transfers it has initiated and whose callback has not run yet.  Between
    the call that creates a transfer, its execution in the token contract and the callback, any other
    events may happen. *)
From Verif Require Import Base BaseLemmas Farming.

(** A transfer in flight.  [res]: None while the token contract has not executed it, then Some ok. *)
Inductive fpend :=
| PReward (token sender : AccountId) (amount : N) (res : option bool)
| PSeed (s : SeedId) (sender : AccountId) (amount : N) (res : option bool).

Definition pend_asset (p : fpend) : string :=
  match p with PReward t _ _ _ => t | PSeed s _ _ _ => s end.
Definition pend_amount (p : fpend) : N :=
  match p with PReward _ _ a _ => a | PSeed _ _ a _ => a end.
Definition pend_res (p : fpend) : option bool :=
  match p with PReward _ _ _ r => r | PSeed _ _ _ r => r end.
Definition pend_set_res (p : fpend) (r : option bool) : fpend :=
  match p with PReward t a m _ => PReward t a m r | PSeed s a m _ => PSeed s a m r end.

Record FWorld := mkFW {
  w_now : N;                       (* block timestamp of the last receipt *)
  w_c : FState;
  w_hold : gmap string N;          (* balance of the farming contract, by token or by MFT seed id *)
  w_pend : gmap nat fpend;
  w_next : nat;
}.

(** The methods anybody can call directly. *)
Inductive fcall :=
| CCreateFarm (attached needed : N) (t : Terms) (m : option N)
| CSetOwner (o : AccountId)
| CForceClean (fid : FarmId)
| CModifyMin (s : SeedId) (m : N)
| CPause (attached : N)
| CResume (attached : N)
| CStorageDeposit (a : AccountId) (attached : N) (registration_only : bool)
| CStorageWithdraw (attached : N) (amount : option N)
| CStorageUnregister (attached : N)
| CClaimFarm (fid : FarmId)
| CClaimSeed (s : SeedId)
| CRemoveRps (fid : FarmId)
| CWithdrawSeed (attached : N) (s : SeedId) (amount : N)
| CWithdrawReward (attached : N) (token : AccountId) (amount : option N).

(** The effect on the contract and the transfer created, if any *)
Definition fcall_exec (now : N) (c : FState) (caller : AccountId) (x : fcall)
  : option (FState * option fpend) :=
  match x with
  | CCreateFarm att needed t m =>
      (* the JSON arguments are decoded as u32 / u128 *)
      _ ← ensure ((t_start t <? W32) && (t_interval t <? W32) && (t_rps t <? W128));
      c' ← create_simple_farm c caller att needed t m; Some (c', None)
  | CSetOwner o => c' ← set_owner c caller o; Some (c', None)
  | CForceClean fid => c' ← force_clean_farm now c caller fid; Some (c', None)
  | CModifyMin s m => c' ← modify_seed_min_deposit c caller s m; Some (c', None)
  | CPause att => c' ← set_running c caller att false; Some (c', None)
  | CResume att => c' ← set_running c caller att true; Some (c', None)
  | CStorageDeposit a att ro => c' ← storage_deposit c a att ro; Some (c', None)
  | CStorageWithdraw att am => '(c', _sent) ← storage_withdraw c caller att am; Some (c', None)
  | CStorageUnregister att => '(c', _sent) ← storage_unregister c caller att; Some (c', None)
  | CClaimFarm fid => c' ← claim_reward_by_farm now c caller fid; Some (c', None)
  | CClaimSeed s => c' ← claim_reward_by_seed now c caller s; Some (c', None)
  | CRemoveRps fid => c' ← remove_user_rps_by_farm c caller fid; Some (c', None)
  | CWithdrawSeed att s am =>
      c' ← withdraw_seed now c caller att s am; Some (c', Some (PSeed s caller am None))
  | CWithdrawReward att t am =>
      '(c', sent) ← withdraw_reward c caller att t am; Some (c', Some (PReward t caller sent None))
  end.

Inductive fevent :=
| EvCall (now : N) (caller : AccountId) (x : fcall)      (* a direct call *)
| EvToken (now : N) (token sender : AccountId) (amount : N) (msg : option FarmId)
    (* ft_transfer_call / mft_transfer_call to the contract: it is credited, then asked *)
| EvDonate (token : AccountId) (amount : N)              (* a plain transfer to the contract *)
| EvRemote (id : nat) (ok : bool)                        (* a token contract executes a transfer *)
| EvCallback (now : N) (id : nat).                       (* the callback of an executed transfer *)

Definition w_tick (w : FWorld) (now : N) : option unit := ensure ((w_now w <=? now) && (now <? W64)).

(** The failure branch of a callback *)
Definition callback_restore (now : N) (c : FState) (p : fpend) : option FState :=
  match p with
  | PReward t a m _ => restore_reward c a t m
  | PSeed s a m _ => seed_deposit now c s a m
  end.

(** One event; [None]: the event does not happen (a panicking call has no effect, so it is not an
    event).  A panicking callback, however, consumes the transfer. *)
Definition fstep (w : FWorld) (e : fevent) : option FWorld :=
  match e with
  | EvCall now caller x =>
      _ ← w_tick w now;
      '(c', p) ← fcall_exec now (w_c w) caller x;
      Some (match p with
            | None => mkFW now c' (w_hold w) (w_pend w) (w_next w)
            | Some q => mkFW now c' (w_hold w) (<[w_next w := q]> (w_pend w)) (S (w_next w))
            end)
  | EvToken now token sender amount msg =>
      _ ← w_tick w now;
      c' ← ft_on_transfer now (w_c w) token sender amount msg;
      Some (mkFW now c' (<[token := mget (w_hold w) token + amount]> (w_hold w)) (w_pend w) (w_next w))
  | EvDonate token amount =>
      Some (mkFW (w_now w) (w_c w) (<[token := mget (w_hold w) token + amount]> (w_hold w)) (w_pend w) (w_next w))
  | EvRemote id ok =>
      p ← w_pend w !! id;
      match pend_res p with
      | Some _ => None
      | None =>
          h ← (if ok : bool then csub (mget (w_hold w) (pend_asset p)) (pend_amount p)
               else Some (mget (w_hold w) (pend_asset p)));
          Some (mkFW (w_now w) (w_c w) (<[pend_asset p := h]> (w_hold w))
                     (<[id := pend_set_res p (Some ok)]> (w_pend w)) (w_next w))
      end
  | EvCallback now id =>
      _ ← w_tick w now;
      p ← w_pend w !! id;
      match pend_res p with
      | None => None
      | Some true => Some (mkFW now (w_c w) (w_hold w) (delete id (w_pend w)) (w_next w))
      | Some false =>
          let c' := default (w_c w) (callback_restore now (w_c w) p) in
          Some (mkFW now c' (w_hold w) (delete id (w_pend w)) (w_next w))
      end
  end.

Definition fw_new (owner : AccountId) : FWorld := mkFW 0 (fs_new owner) ∅ ∅ 0.

(** [frun w es w']: the events [es] happen in this order *)
Inductive frun : FWorld -> list fevent -> FWorld -> Prop :=
| frun_nil w : frun w [] w
| frun_cons w e w1 es w2 : fstep w e = Some w1 -> frun w1 es w2 -> frun w (e :: es) w2.

Definition freachable (w : FWorld) : Prop := exists owner es, frun (fw_new owner) es w.

Fixpoint frun_exec (w : FWorld) (es : list fevent) : option FWorld :=
  match es with [] => Some w | e :: es' => w' ← fstep w e; frun_exec w' es' end.

(** ** Vocabulary *)
(** total stake the contract records for a seed *)
Definition seed_total (c : FState) (s : SeedId) : N :=
  match fs_seeds c !! s with Some sd => s_amount sd | None => 0 end.
(** stake of one farmer *)
Definition stake_of (c : FState) (a : AccountId) (s : SeedId) : N :=
  match fs_farmers c !! a with Some r => mget (fr_seeds r) s | None => 0 end.
(** claimed, not withdrawn reward of one farmer *)
Definition reward_balance (c : FState) (a : AccountId) (t : AccountId) : N :=
  match fs_farmers c !! a with Some r => mget (fr_rewards r) t | None => 0 end.
(** sum of all stakes *)
Definition stakes_sum (c : FState) (s : SeedId) : N :=
  msum (fun _ r => mget (fr_seeds r) s) (fs_farmers c).
Definition rewards_sum (c : FState) (t : AccountId) : N :=
  msum (fun _ r => mget (fr_rewards r) t) (fs_farmers c).
(** a farm by id, wherever it is *)
Definition known_farm (c : FState) (fid : FarmId) : option Farm :=
  match fs_farms c !! fid with Some f => Some f | None => fs_outdated c !! fid end.
(** reward of token [t] a farm still holds for farmers; beneficiary part included *)
Definition farm_owes (t : AccountId) (f : Farm) : N :=
  if String.eqb (t_reward (f_terms f)) t
  then d_undist (f_dist f) + d_unclaimed (f_dist f) + f_benef f else 0.
Definition farms_owe (c : FState) (t : AccountId) : N :=
  msum (fun _ f => farm_owes t f) (fs_farms c) + msum (fun _ f => farm_owes t f) (fs_outdated c).
(** amounts in transfers that have not (successfully) left the contract *)
Definition pend_owes (t : string) (p : fpend) : N :=
  match pend_res p with
  | Some true => 0
  | _ => if String.eqb (pend_asset p) t then pend_amount p else 0
  end.
Definition inflight (w : FWorld) (t : string) : N := msum (fun _ p => pend_owes t p) (w_pend w).

(** Reward deposited into a farm by a list of events *)
Definition deposited (fid : FarmId) (es : list fevent) : N :=
  foldr (fun e acc =>
    match e with
    | EvToken _ _ _ am (Some fid') => if decide (fid' = fid) then am + acc else acc
    | _ => acc
    end) 0 es.

(** life cycle order *)
Definition status_rank (s : FStatus) : nat :=
  match s with Created => 0 | Running => 1 | Ended => 2 | Cleared => 3 end.

(** whole sessions elapsed at time [now] since the start of a farm *)
Definition sessions (now : N) (t : Terms) : N := (now / 10 ^ 9 - t_start t) / t_interval t.
