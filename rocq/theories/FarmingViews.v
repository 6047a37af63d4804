(** * NEAR paid by the farming contract, and its views (crate ref-farming, paths below are relative to ref-farming/src)

    Paging (list_farms, list_outdated_farms, list_seeds, list_rewards_info, list_seeds_info) lists what the
    views below show one by one, in the order of near-sdk's UnorderedMap; that order is not modelled. *)
From Verif Require Import Base Farming.

(** ** NEAR that is sent *)
(** storage_impl.rs:32-47: only the registration of a new account returns NEAR, to the caller *)
Definition storage_deposit_refund (c : FState) (a : AccountId) (attached : N) (registration_only : bool) : N :=
  let '(locked, deposited) := farmer_storage c a in
  if deposited =? 0 then (if registration_only then attached - min_storage_usage else 0) else 0.

(** actions_of_farm.rs:24-35 *)
Definition create_simple_farm_refund (attached storage_needed : N) : N :=
  attached - storage_needed * BYTE_COST.

(** storage_impl.rs:122-132 storage_balance_of: total and available *)
Definition storage_balance_of (c : FState) (a : AccountId) : option (N * N) :=
  let '(locked, deposited) := farmer_storage c a in
  if 0 <? locked then Some (deposited, deposited - locked) else None.

(** view.rs:302-313 get_user_storage_state: deposit and usage *)
Definition get_user_storage_state (c : FState) (a : AccountId) : option (N * N) :=
  let '(locked, deposited) := farmer_storage c a in
  if 0 <? locked then Some (deposited, locked) else None.

(** ** view.rs:41-59 FarmInfo; farm id, farm kind and the terms are copied and left out *)
Record FarmInfo := mkFarmInfo {
  fi_status : FStatus;
  fi_total : N;
  fi_round : N;         (* cur_round *)
  fi_last : N;          (* last_round *)
  fi_claimed : N;
  fi_unclaimed : N;
  fi_benef : N;
}.

(** view.rs:61-113 From<&Farm> for FarmInfo *)
Definition farm_info (now : N) (f : Farm) : option FarmInfo :=
  od ← try_distribute now f DENOM;
  Some (match od with
        | Some dis =>
            mkFarmInfo (if bool_decide (f_status f = Running) && (d_undist dis =? 0) then Ended else f_status f)
              (f_reward f) (d_rr dis) (d_rr (f_dist f)) (f_claimed f) (d_unclaimed dis) (f_benef f)
        | None =>
            mkFarmInfo (f_status f) (f_reward f) (d_rr (f_dist f)) (d_rr (f_dist f)) (f_claimed f)
              (d_unclaimed (f_dist f)) (f_benef f)
        end).

(** view.rs:170-177 get_farm *)
Definition get_farm (now : N) (c : FState) (fid : FarmId) : option (option FarmInfo) :=
  match fs_farms c !! fid with Some f => i ← farm_info now f; Some (Some i) | None => Some None end.
(** view.rs:179-185 get_outdated_farm *)
Definition get_outdated_farm (now : N) (c : FState) (fid : FarmId) : option (option FarmInfo) :=
  match fs_outdated c !! fid with Some f => i ← farm_info now f; Some (Some i) | None => Some None end.

(** view.rs:117-127 get_metadata: farmer_count, farm_count, seed_count, reward_count *)
Definition get_metadata (c : FState) : N * N * N * N :=
  (fs_count c, N.of_nat (size (fs_farms c)), N.of_nat (size (fs_seeds c)), N.of_nat (size (fs_info c))).

(** view.rs:187-201 list_rewards_info, one entry *)
Definition reward_info (c : FState) (t : AccountId) : N := mget (fs_info c) t.

(** view.rs:214-218 get_reward, through actions_of_reward.rs:247-257 internal_get_reward: an unregistered
    account has no reward *)
Definition get_reward (c : FState) (a t : AccountId) : N :=
  match fs_farmers c !! a with Some r => mget (fr_rewards r) t | None => 0 end.
