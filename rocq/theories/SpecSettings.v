(** * What every setting is after an event: which call sets it, and to what *)
From Verif Require Import Base BaseLemmas SimplePool StablePool SpecStable Rates Echo Account Pool Exchange SpecExchange SpecWorld SpecAccess.

Definition call_of (ev : Event) : option Call := match ev with EvCall _ x => Some x | _ => None end.
(** A value after an event: what the call says, if it is a call about this value, and the value before otherwise. *)
Definition becomes {V} (v' v : V) (says : Call -> option V) (ev : Event) : Prop :=
  v' = match call_of ev with Some x => default v (says x) | None => v end.
(** A set after an event: the elements the call adds and the earlier ones it does not remove. *)
Definition listed {V} (l : Call -> list V) (ev : Event) : list V := match call_of ev with Some x => l x | None => [] end.
Definition set_becomes (s' s : gset string) (add del : Call -> list string) (ev : Event) : Prop :=
  forall a, a ∈ s' <-> a ∈ listed add ev \/ (a ∈ s /\ a ∉ listed del ev).
(** A table after an event: the call names at most one key and what it stands for now. *)
Definition map_becomes `{Countable K} {V} (m' m : gmap K V) (says : Call -> option (K * option V)) (ev : Event) : Prop :=
  forall k, m' !! k = match x ← call_of ev; says x with
                      | Some (i, o) => if decide (i = k) then o else m !! k
                      | None => m !! k
                      end.

(** The settings of the exchange. *)
Definition settings_rule (ev : Event) (k k' : Config) : Prop :=
  becomes (cf_owner k') (cf_owner k) (fun x => match x with CSetOwner a => Some a | _ => None end) ev /\
  becomes (cf_farm k') (cf_farm k) (fun x => match x with CModifyFarm a => Some a | _ => None end) ev /\
  becomes (cf_burrow k') (cf_burrow k) (fun x => match x with CModifyBurrow a => Some a | _ => None end) ev /\
  becomes (cf_admin_fee k') (cf_admin_fee k) (fun x => match x with CModifyAdminFee f => Some f | _ => None end) ev /\
  becomes (cf_running k') (cf_running k) (fun x => match x with CChangeState b => Some b | _ => None end) ev /\
  becomes (cf_interval k') (cf_interval k) (fun x => match x with CModifyInterval i => Some i | _ => None end) ev /\
  becomes (cf_wnear k') (cf_wnear k) (fun x => match x with CModifyWnear a => Some (Some a) | _ => None end) ev /\
  set_becomes (cf_guardians k') (cf_guardians k) (fun x => match x with CExtendGuardians l => l | _ => [] end)
    (fun x => match x with CRemoveGuardians l => l | _ => [] end) ev /\
  set_becomes (cf_whitelist k') (cf_whitelist k) (fun x => match x with CExtendWhitelist l => l | _ => [] end)
    (fun x => match x with CRemoveWhitelist l => l | _ => [] end) ev /\
  set_becomes (cf_frozen k') (cf_frozen k) (fun x => match x with CExtendFrozen l => l | _ => [] end)
    (fun x => match x with CRemoveFrozen l => l | _ => [] end) ev /\
  set_becomes (cf_postfix k') (cf_postfix k) (fun x => match x with CExtendPostfix l => l | _ => [] end)
    (fun x => match x with CRemovePostfix l => l | _ => [] end) ev /\
  set_becomes (el_tokens (cf_echo k')) (el_tokens (cf_echo k)) (fun x => match x with CExtendEcho EchoTokens l => l | _ => [] end)
    (fun x => match x with CRemoveEcho EchoTokens l => l | _ => [] end) ev /\
  set_becomes (el_senders (cf_echo k')) (el_senders (cf_echo k)) (fun x => match x with CExtendEcho EchoSenders l => l | _ => [] end)
    (fun x => match x with CRemoveEcho EchoSenders l => l | _ => [] end) ev /\
  set_becomes (el_secure (cf_echo k')) (el_secure (cf_echo k)) (fun x => match x with CExtendEcho EchoSecure l => l | _ => [] end)
    (fun x => match x with CRemoveEcho EchoSecure l => l | _ => [] end) ev /\
  map_becomes (cf_referrals k') (cf_referrals k)
    (fun x => match x with
              | CInsertReferral a f | CUpdateReferral a f => Some (a, Some f) | CRemoveReferral a => Some (a, None)
              | _ => None end) ev /\
  map_becomes (cf_limits k') (cf_limits k)
    (fun x => match x with
              | CAddLimit i y | CUpdateLimit i y => Some (i, Some y) | CRemoveLimit i => Some (i, None)
              | _ => None end) ev.

(** Which rated and degen tokens there are, with which sources, and the configured oracles. *)
Definition oracle_rule (ev : Event) (s s' : RateState) : Prop :=
  map_becomes (rt_kind <$> rs_rates s') (rt_kind <$> rs_rates s)
    (fun x => match x with
              | CRateAdmin (RegisterRate k t) => Some (t, Some k)
              | CRateAdmin (UpdateRateExtra t i) => Some (t, Some (RSfrax i))
              | CRateAdmin (UnregisterRate t) => Some (t, None)
              | _ => None end) ev /\
  map_becomes (dg_src <$> rs_degens s') (dg_src <$> rs_degens s)
    (fun x => match x with
              | CRateAdmin (RegisterDegen t d) | CRateAdmin (UpdateDegen t d) => Some (t, Some d)
              | CRateAdmin (UnregisterDegen t) => Some (t, None)
              | _ => None end) ev /\
  becomes (rs_price_cfg s') (rs_price_cfg s)
    (fun x => match x with
              | CRateAdmin (RegisterConfig (CfgPrice o)) | CRateAdmin (UpdateConfig (CfgPrice o)) => Some (Some o)
              | CRateAdmin (UnregisterConfig n) => if String.eqb n "PriceOracleConfig" then Some None else None
              | _ => None end) ev /\
  becomes (rs_pyth_cfg s') (rs_pyth_cfg s)
    (fun x => match x with
              | CRateAdmin (RegisterConfig (CfgPyth o)) | CRateAdmin (UpdateConfig (CfgPyth o)) => Some (Some o)
              | CRateAdmin (UnregisterConfig n) => if String.eqb n "PythOracleConfig" then Some None else None
              | _ => None end) ev.

(** Fee and amplification of pool [pid] at time [now]: start, target, begin and end of the ramp. *)
Definition pool_rule (ev : Event) (now pid : N) (p p' : Pool) : Prop :=
  becomes (pl_params p').1 (pl_params p).1 (fun x => match x with CModifyTotalFee i f => if i =? pid then Some f else None | _ => None end) ev /\
  becomes (pl_params p').2 (pl_params p).2
    (fun x => let amp := match p with PSimple _ => 0 | PStable q => st_get_amp q now end in
              match x with
              | CRamp i a t => if i =? pid then Some (amp, a, now, t) else None
              | CStopRamp i => if i =? pid then Some (amp, amp, now, now) else None
              | _ => None end) ev.
Definition pools_rule (ev : Event) (now : N) (c c' : Exchange) : Prop :=
  forall pid p, ex_pool c pid = Some p -> exists p', ex_pool c' pid = Some p' /\ pool_rule ev now pid p p'.

(** Bounds of fees and amplifications. *)
Definition referrals_bounded (k : Config) : Prop := forall a f, cf_referrals k !! a = Some f -> 0 < f < 10000.
Definition pool_bounded (p : Pool) : Prop :=
  match p with
  | PSimple q => sp_fee q < 10000
  | PStable q => st_fee q < 10000 /\ 1 <= st_init_amp q <= 10 ^ 6 /\ 1 <= st_target_amp q <= 10 ^ 6
  end.
