(** * NEAR, storage and statistics of the farming contract: vocabulary *)
From Verif Require Import Base BaseLemmas Farming SpecFarming FarmingViews.

(** NEAR the contract records for one farmer and for all of them. *)
Definition paid_by (c : FState) (a : AccountId) : N :=
  match fs_farmers c !! a with Some r => fr_amount r | None => 0 end.
Definition paid_total (c : FState) : N := msum (fun _ r => fr_amount r) (fs_farmers c).

(** NEAR attached to a call; the methods that are not payable refuse any. *)
Definition f_attached (x : fcall) : N :=
  match x with
  | CCreateFarm att _ _ _ | CPause att | CResume att | CStorageDeposit _ att _ | CStorageWithdraw att _
  | CStorageUnregister att | CWithdrawSeed att _ _ | CWithdrawReward att _ _ => att
  | _ => 0
  end.
(** NEAR sent to the caller by a successful call. *)
Definition f_sent (c : FState) (caller : AccountId) (x : fcall) : N :=
  match x with
  | CCreateFarm att needed _ _ => create_simple_farm_refund att needed
  | CStorageDeposit a att ro => storage_deposit_refund c a att ro
  | CStorageWithdraw att am => match storage_withdraw c caller att am with Some (_, sent) => sent | None => 0 end
  | CStorageUnregister att => match storage_unregister c caller att with Some (_, sent) => sent | None => 0 end
  | _ => 0
  end.
(** The yocto that is attached to the transfer of a token. *)
Definition f_forwarded (x : fcall) : N :=
  match x with CWithdrawSeed _ _ _ | CWithdrawReward _ _ _ => 1 | _ => 0 end.
(** What stays with the contract: the price of the storage of a farm, and the yocto of the calls that require one. *)
Definition f_kept (x : fcall) : N :=
  match x with
  | CCreateFarm _ needed _ _ => needed * BYTE_COST
  | CPause _ | CResume _ | CStorageWithdraw _ _ | CStorageUnregister _ => 1
  | _ => 0
  end.

(** The NEAR of the contract along a run, without what it owns for other reasons. *)
Definition f_near_in (e : fevent) : N := match e with EvCall _ _ x => f_attached x | _ => 0 end.
Definition f_near_out (w : FWorld) (e : fevent) : N :=
  match e with
  | EvCall _ a x => f_sent (w_c w) a x + f_forwarded x + match x with CCreateFarm _ needed _ _ => needed * BYTE_COST | _ => 0 end
  | _ => 0
  end.
Inductive f_ledger (w0 : FWorld) (h0 : N) : FWorld -> N -> Prop :=
| fl_start : f_ledger w0 h0 w0 h0
| fl_step w h e w' : f_ledger w0 h0 w h -> fstep w e = Some w' -> f_ledger w0 h0 w' (h + f_near_in e - f_near_out w e).

(** The storage a farmer uses is paid for. *)
Definition covered (c : FState) (a : AccountId) : Prop :=
  exists r, fs_farmers c !! a = Some r /\ fr_storage_usage r <= fr_amount r.

(** Rewards brought in by a list of events, by token. *)
Definition brought (t : AccountId) (es : list fevent) : N :=
  foldr (fun e acc =>
    match e with
    | EvToken _ token _ am (Some _) => if String.eqb token t then am + acc else acc
    | _ => acc
    end) 0 es.
(** Rewards recorded by all farms that ever existed, by token. *)
Definition farm_total (t : AccountId) (f : Farm) : N := if String.eqb (t_reward (f_terms f)) t then f_reward f else 0.
Definition farms_total (c : FState) (t : AccountId) : N :=
  msum (fun _ f => farm_total t f) (fs_farms c) + msum (fun _ f => farm_total t f) (fs_outdated c).
