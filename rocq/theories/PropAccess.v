(** * C29 frozen tokens, C30 pausing, C31 access control, C54 whose deposits can fall *)
From Verif Require Import PropSimple PropStable.
From Verif Require Import Base BaseLemmas SimplePool SimplePoolProofs SpecSimple SimplePoolInv StableMath StablePool
  SpecStable StablePoolProofs StablePoolInv Rates Echo Twap Account Pool Exchange SpecExchange AccountProofs PoolFacts
  ExchangeProofs ExchangeInv ExchangeEffect ExchangeFrames SpecWorld WorldProofs ExExample PropWorld SpecSwap SwapProofs PropSwap
  SpecHistory HistoryProofs SpecAccess AccessProofs FrozenProofs.

(** Frozen: [a]; two more pools of [b] and [c] with different prices. *)
Definition freeze_events : list Event :=
  [ EvCall (env 118 "al" (10 ^ 24)) (CAddSimplePool ["b"; "c"] 30);
    EvCall (env 118 "al" (10 ^ 24)) (CAddSimplePool ["b"; "c"] 30);
    EvCall (env 118 "al" (10 ^ 24)) (CAddLiquidity 3 [100000; 200000] None);
    EvCall (env 118 "al" (10 ^ 24)) (CAddLiquidity 4 [200000; 100000] None);
    EvCall (env 119 "own" 1) (CExtendFrozen ["a"]) ].
Definition w_frozen : World := default w_rich (w_run w_rich freeze_events).
Lemma w_frozen_runs : w_run w_rich freeze_events = Some w_frozen.
Proof. apply run_default. vm_compute. reflexivity. Qed.
Definition fr : Exchange := w_ex w_frozen.
Definition zap_acts : list Action := [ASwapByOutput 3 "b" (Some 1000) "c" None; ASwapByOutput 4 "c" None "b" None].
Lemma frozen_reach : w_reach w_fresh w_frozen.
Proof. eapply w_run_reach; [apply rich_reach|exact w_frozen_runs]. Qed.
Lemma frozen_ok : w_ok w_frozen.
Proof. eapply w_reach_ok; [apply w_start_ok, w_fresh_start|apply frozen_reach]. Qed.
Lemma fr_wf now : 119 <= now -> ex_wf now fr.
Proof.
  intros H. destruct frozen_ok as [Hw _]. assert (E : w_now w_frozen = 119) by (vm_compute; reflexivity). rewrite E in Hw. eapply ex_wf_later; eauto.
Qed.
Lemma fr_frozen t : bool_decide (t ∈ cf_frozen (ex_cfg fr)) = true -> t ∈ cf_frozen (ex_cfg fr).
Proof. apply bool_decide_eq_true. Qed.

(** ** C29 *)
(** Swaps naming a frozen token, liquidity calls on pools containing it, withdrawals and lost-and-found claims of it fail. *)
Theorem C29_calls_fail c e x t : t ∈ cf_frozen (ex_cfg c) -> involves c x t -> ex_call c e x = None.
Proof. apply frozen_call. Qed.
Print Assumptions C29_calls_fail.
(** So do plain deposits of it, instant swaps naming it and zaps naming it or into pools containing it. What is missing: zaps
    and instant swaps sent with the frozen token itself but not naming it (below). *)
Theorem C29_transfers_fail_partial c e s x m t :
  t ∈ cf_frozen (ex_cfg c) -> arrives_about c (e_caller e) m t -> ex_ft_on_transfer c e s x m = None.
Proof. apply frozen_transfer. Qed.
Print Assumptions C29_transfers_fail_partial.
(** A call that succeeds changes nobody's deposit, no reserve and no lost-and-found entry of a frozen token, unless it is
    one of the calls that do not look at the list: transfers between deposits, donations, what owner and guardians take. *)
Theorem C29_untouched c e x c' ps t :
  ex_wf (e_now e) c -> e_now e < 2 ^ 64 -> t ∈ cf_frozen (ex_cfg c) -> ex_call c e x = Some (c', ps) -> ~ unchecked c x t ->
  untouched t c c'.
Proof. intros Hwf HW Ht H Hu. eapply ex_call_untouched; eauto. Qed.
Print Assumptions C29_untouched.
(** Incoming tokens never change reserves or lost-and-found entries of a frozen token; deposits of it only by zaps sent
    with the frozen token itself, which is then credited to the sender in full. *)
Theorem C29_incoming c e s x m c' ps t :
  ex_wf (e_now e) c -> e_now e < 2 ^ 64 -> t ∈ cf_frozen (ex_cfg c) -> ex_ft_on_transfer c e s x m = Some (c', ps) ->
  (forall a, held_by c' a t = held_by c a t + match m with MsgHotZap _ _ _ _ => if String.eqb s a then only (e_caller e) t x else 0 | _ => 0 end) /\
  (forall pid, reserve_at c' pid t = reserve_at c pid t) /\ (forall a, lost_of c' a t = lost_of c a t).
Proof. intros Hwf HW Ht H. eapply transfer_untouched; eauto. Qed.
Print Assumptions C29_incoming.
(** In all executions during which the token stays frozen and nobody takes out fee liquidity of its pools, the reserves
    of the token in all pools stay the same. *)
Theorem C29_reserves_history w0 w t :
  w_ok w0 -> w_along (fun w ev => t ∈ cf_frozen (ex_cfg (w_ex w)) /\ ~ takes_fees (w_ex w) ev t) w0 w ->
  forall pid, reserve_at (w_ex w) pid t = reserve_at (w_ex w0) pid t.
Proof.
  intros Hok H. assert (w_ok w /\ forall pid, reserve_at (w_ex w) pid t = reserve_at (w_ex w0) pid t) as [_ ?]; [|done].
  induction H as [|w ev w' Hr [IHok IH] [Ht Hf] Hs]; [done|]. pose proof (w_step_any _ _ _ IHok Hs) as (Hok' & _ & _). split; [done|].
  destruct (w_step_happens _ _ _ Hs) as [Hn Hh]. intros pid. rewrite <- IH.
  eapply happens_reserve; [|exact Hh|done|done]. eapply ex_wf_later; [exact Hn|apply IHok].
Qed.
Print Assumptions C29_reserves_history.
(** The property as written fails: with [a] frozen, bo sends [a] with a zap through other tokens and gets it credited; sent
    with an instant swap of other tokens it is passed on to somebody else; deposits of it can be handed on and donated. *)
Theorem C29_incoming_refuted :
  ex_wf 120 fr /\ ("a" : string) ∈ cf_frozen (ex_cfg fr) /\
  (exists c', ex_ft_on_transfer fr (env 120 "a" 0) "bo" 10000 (MsgHotZap None zap_acts [mkAddInfo 1 [0; 100] None (Some 0)] true) = Some (c', []) /\
     held_by c' "bo" "a" = held_by fr "bo" "a" + 10000) /\
  (exists c', ex_ft_on_transfer fr (env 120 "a" 0) "bo" 10000 (MsgExecute None [ASwap 1 "b" (Some 0) "c" 0] false None (Some "yan"%string) true)
     = Some (c', [PSend "a" "yan" 10000])) /\
  (exists c', ex_call fr (env 120 "bo" 1) (CMftTransfer "a" "al" 500) = Some (c', []) /\ held_by c' "al" "a" = held_by fr "al" "a" + 500).
Proof.
  split; [apply fr_wf; lia|]. split; [apply fr_frozen; vm_compute; reflexivity|]. split; [|split].
  - eexists. split.
    + match goal with |- ?x = _ => assert (E : done_ x = true /\ snd (default (rich, [PRetrieve "" "" 0]) x) = []) by (split; vm_compute; reflexivity) end.
      destruct E as [E1 E2]. rewrite (run_pair (rich, [PRetrieve "" "" 0]) _ E1), E2. reflexivity.
    + vm_compute. reflexivity.
  - eexists. match goal with |- ?x = _ => assert (E : done_ x = true /\ snd (default (rich, []) x) = [PSend "a" "yan" 10000]) by (split; vm_compute; reflexivity) end.
    destruct E as [E1 E2]. rewrite (run_pair (rich, []) _ E1), E2. reflexivity.
  - eexists. split.
    + match goal with |- ?x = _ => assert (E : done_ x = true /\ snd (default (rich, [PRetrieve "" "" 0]) x) = []) by (split; vm_compute; reflexivity) end.
      destruct E as [E1 E2]. rewrite (run_pair (rich, [PRetrieve "" "" 0]) _ E1), E2. reflexivity.
    + vm_compute. reflexivity.
Qed.
Print Assumptions C29_incoming_refuted.
(** Everything involving [a] fails, what does not involve it goes on. *)
Example C29_ex :
  ("a" : string) ∈ cf_frozen (ex_cfg fr) /\
  Forall (fun x => involves fr x "a") [CSwap [ASwap 0 "a" (Some 1000) "b" 0] None true; CAddLiquidity 0 [10000; 10000] None; CWithdraw "a" 100 false None] /\
  ex_call fr (env 120 "bo" 1) (CWithdraw "a" 100 false None) = None /\
  done_ (ex_call (w_ex w_rich) (env 120 "bo" 1) (CWithdraw "a" 100 false None)) = true /\
  done_ (ex_call fr (env 120 "al" 1) (CSwap [ASwap 1 "b" (Some 1000) "c" 0] None true)) = true /\
  ex_ft_on_transfer fr (env 120 "a" 0) "bo" 10 MsgDeposit = None.
Proof.
  split; [apply fr_frozen; vm_compute; reflexivity|]. split; [|split_and!; vm_compute; reflexivity].
  assert (P0 : in_pool fr 0 "a").
  { assert (E : match ex_pool fr 0 with Some p => bool_decide (("a" : string) ∈ pl_tokens p) | None => false end = true) by (vm_compute; reflexivity).
    destruct (ex_pool fr 0) as [p|] eqn:Ep; [|discriminate E]. exists p. split; [done|]. now apply bool_decide_eq_true in E. }
  apply Forall_cons. split; [|apply Forall_cons; split; [exact P0|apply Forall_cons; split; [reflexivity|apply Forall_nil; exact I]]].
  exists (ASwap 0 "a" (Some 1000) "b" 0). split; [apply elem_of_list_here|now left].
Qed.

(** ** C30 *)
(** While paused, user calls and incoming tokens fail. What is missing: averages of prices can still be synchronised (below),
    and the lending contract can liquidate. *)
Theorem C30_paused_call_partial c e x : cf_running (ex_cfg c) = false -> stops_when_paused x = true -> ex_call c e x = None.
Proof. apply paused_call. Qed.
Print Assumptions C30_paused_call_partial.
Theorem C30_paused_transfer c e s x m : cf_running (ex_cfg c) = false -> ex_ft_on_transfer c e s x m = None.
Proof.
  intros Hr. destruct (ex_ft_on_transfer c e s x m) eqn:H; [exfalso|done]. unfold ex_ft_on_transfer in H. cbv zeta in H. grd H. grd H.
  unfold running in G0. rewrite Hr in G0. discriminate G0.
Qed.
Print Assumptions C30_paused_transfer.
(** Only the owner resumes, by change_state. *)
Theorem C30_resume w ev w' :
  w_step w ev = Some w' -> cf_running (ex_cfg (w_ex w)) = false -> cf_running (ex_cfg (w_ex w')) = true ->
  exists e, ev = EvCall e (CChangeState true) /\ e_caller e = cf_owner (ex_cfg (w_ex w)).
Proof.
  intros Hs H0 H1. destruct (w_step_happens _ _ _ Hs) as [_ Hh]. apply happens_cases in Hh as [(e & x & ps & -> & _ & _ & H)|(E & _)]; [|congruence].
  apply resumes_call in H as [-> Ho]; eauto.
Qed.
Print Assumptions C30_resume.
(** Nobody but owner, guardians and the lending contract calls. *)
Definition by_users (c0 : Exchange) (ev : Event) : Prop :=
  match ev with EvCall e _ => ~ trusted c0 (e_caller e) /\ e_caller e <> cf_burrow (ex_cfg c0) | _ => True end.
(** In all executions from a paused state without calls of owner, guardians and the lending contract the exchange stays
    paused, and no pool is added and no reserve and no supply of shares changes. *)
Theorem C30_history w0 w :
  w_ok w0 -> cf_running (ex_cfg (w_ex w0)) = false -> w_along (fun _ ev => by_users (w_ex w0) ev) w0 w ->
  cf_running (ex_cfg (w_ex w)) = false /\ pools_still (w_ex w0) (w_ex w).
Proof.
  intros Hok Hr H. assert (w_ok w /\ ex_cfg (w_ex w) = ex_cfg (w_ex w0) /\ pools_still (w_ex w0) (w_ex w)) as (_ & E & ?); [|rewrite E; done].
  induction H as [|w ev w' Hal (IHok & IHc & IH) Hby Hs]; [split; [done|]; split; [done|apply still_refl]|].
  pose proof (w_step_any _ _ _ IHok Hs) as (Hok' & _ & _). split; [done|]. destruct (w_step_happens _ _ _ Hs) as [Hn Hh].
  assert (K : ex_cfg (w_ex w') = ex_cfg (w_ex w) /\ pools_still (w_ex w) (w_ex w')).
  { eapply happens_still; [|exact Hh|rewrite IHc; done|]; [eapply ex_wf_later; [exact Hn|apply IHok]|].
    destruct ev; try done. unfold trusted. rewrite IHc. exact Hby. }
  destruct K as [K1 K2]. split; [congruence|]. eapply still_trans; eauto.
Qed.
Print Assumptions C30_history.
(** Anybody can still update the averages of a paused exchange. *)
Definition sync_events : list Event :=
  [EvCall (env 118 "own" 1) (CRegisterTwap 1); EvCall (env 119 "own" 1) (CChangeState false)].
Definition w_sync : World := default w_rich (w_run w_rich sync_events).
Theorem C30_sync_refuted :
  w_run w_rich sync_events = Some w_sync /\ cf_running (ex_cfg (w_ex w_sync)) = false /\ ~ trusted (w_ex w_sync) "bo" /\
  exists c', ex_call (w_ex w_sync) (env (10 ^ 13) "bo" 0) (CSyncTwap 1) = Some (c', []) /\ ex_twap c' !! 1 <> ex_twap (w_ex w_sync) !! 1.
Proof.
  split; [apply run_default; vm_compute; reflexivity|]. split; [vm_compute; reflexivity|]. split.
  - intros [E|E].
    + assert (K : String.eqb "bo" (cf_owner (ex_cfg (w_ex w_sync))) = false) by (vm_compute; reflexivity). apply String.eqb_neq in K. exact (K E).
    + assert (K : bool_decide (("bo" : string) ∈ cf_guardians (ex_cfg (w_ex w_sync))) = false) by (vm_compute; reflexivity). apply bool_decide_eq_false in K. exact (K E).
  - eexists. split.
    + match goal with |- ?x = _ => assert (E : done_ x = true /\ snd (default (rich, [PRetrieve "" "" 0]) x) = []) by (split; vm_compute; reflexivity) end.
      destruct E as [E1 E2]. rewrite (run_pair (rich, [PRetrieve "" "" 0]) _ E1), E2. reflexivity.
    + vm_compute. discriminate.
Qed.
Print Assumptions C30_sync_refuted.
(** A guardian pauses: swaps, deposits and withdrawals fail, the guardian cannot resume, the owner can. *)
Definition pause_events : list Event :=
  [EvCall (env 118 "own" 1) (CExtendGuardians ["gu"]); EvCall (env 119 "gu" 1) (CChangeState false)].
Definition w_paused : World := default w_rich (w_run w_rich pause_events).
Example C30_ex :
  w_run w_rich pause_events = Some w_paused /\ cf_running (ex_cfg (w_ex w_paused)) = false /\
  forallb stops_when_paused [CSwap [ASwap 0 "a" (Some 1000) "b" 0] None true; CWithdraw "a" 100 false None; CStorageDeposit None false] = true /\
  forallb (fun x => done_ (ex_call rich (env 120 "bo" 1) x)) [CSwap [ASwap 0 "a" (Some 1000) "b" 0] None true; CWithdraw "a" 100 false None] = true /\
  forallb (fun x => negb (done_ (ex_call (w_ex w_paused) (env 120 "bo" 1) x))) [CSwap [ASwap 0 "a" (Some 1000) "b" 0] None true; CWithdraw "a" 100 false None] = true /\
  done_ (w_step w_paused (EvCall (env 120 "gu" 1) (CChangeState true))) = false /\
  done_ (w_step w_paused (EvCall (env 120 "own" 1) (CChangeState true))) = true.
Proof. split; [apply run_default; vm_compute; reflexivity|]. split_and!; vm_compute; reflexivity. Qed.

(** ** C31 *)
(** Calls that change settings, fees, curves and oracles, and those that take out owner tokens and fee liquidity, are by
    the owner or a guardian ... *)
Theorem C31_privileged c e x c' ps : privileged x = true -> ex_call c e x = Some (c', ps) -> trusted c (e_caller e).
Proof. apply privileged_call. Qed.
Print Assumptions C31_privileged.
(** ... and some of them by the owner alone. *)
Theorem C31_for_owner c e x c' ps : for_owner x = true -> ex_call c e x = Some (c', ps) -> e_caller e = cf_owner (ex_cfg c).
Proof. apply owner_call_only. Qed.
Print Assumptions C31_for_owner.
(** Whatever a guardian or anybody else who is not the owner calls, owner, guardians, wNEAR and protocol fee stay, the
    exchange is not resumed, limits stay, client lists do not shrink, oracles stay. *)
Theorem C31_guardians c e x c' ps : ex_call c e x = Some (c', ps) -> e_caller e <> cf_owner (ex_cfg c) -> owners_kept c c'.
Proof. apply others_owners. Qed.
Print Assumptions C31_guardians.
(** In all executions without calls by the owner the same holds from beginning to end. *)
Theorem C31_guardians_history w0 w :
  w_along (fun _ ev => match ev with EvCall e _ => e_caller e <> cf_owner (ex_cfg (w_ex w0)) | _ => True end) w0 w -> owners_kept (w_ex w0) (w_ex w).
Proof.
  induction 1 as [|w ev w' Hal IH Hby Hs]; [apply owners_refl|]. eapply owners_trans; [exact IH|].
  destruct (w_step_happens _ _ _ Hs) as [_ Hh]. apply happens_cases in Hh as [(e & x & ps & -> & _ & _ & H)|Hg]; [|now apply governed_owners].
  eapply others_owners; [exact H|]. destruct IH as ((E & _) & _). now rewrite E.
Qed.
Print Assumptions C31_guardians_history.
(** In all executions without calls by owner and guardians every setting, the fee and curve of every pool and the
    oracles are the same from beginning to end. *)
Theorem C31_history w0 w : w_along (fun _ ev => by_others (w_ex w0) ev) w0 w -> governed (w_ex w0) (w_ex w).
Proof.
  induction 1 as [|w ev w' Hal IH Hby Hs]; [split; [done|]; split; [apply params_refl|done]|]. eapply governed_trans; [exact IH|].
  destruct (w_step_happens _ _ _ Hs) as [_ Hh]. apply happens_cases in Hh as [(e & x & ps & -> & Hp & _ & H)|Hg]; [|done]. exfalso.
  apply Hby. apply privileged_call in H; [|done]. unfold trusted in *. destruct IH as (E & _). now rewrite <- E.
Qed.
Print Assumptions C31_history.
(** Strangers fail, guardians may do what is theirs, the owner everything. *)
Example C31_ex :
  let c := w_ex w_paused in
  trusted c "gu" /\ ~ trusted c "bo" /\ for_owner (CModifyAdminFee 10) = true /\
  forallb (fun x => negb (done_ (ex_call c (env 120 "bo" 1) x))) [CModifyAdminFee 10; CRemoveWhitelist ["a"]; CInsertReferral "x" 5; CModifyTotalFee 0 9] = true /\
  forallb (fun x => done_ (ex_call c (env 120 "gu" 1) x)) [CRemoveWhitelist ["a"]; CInsertReferral "x" 5; CModifyTotalFee 0 9] = true /\
  done_ (ex_call c (env 120 "gu" 1) (CModifyAdminFee 10)) = false /\ done_ (ex_call c (env 120 "own" 1) (CModifyAdminFee 10)) = true.
Proof.
  cbv zeta. split.
  - right. assert (E : bool_decide (("gu" : string) ∈ cf_guardians (ex_cfg (w_ex w_paused))) = true) by (vm_compute; reflexivity). apply bool_decide_eq_true in E. exact E.
  - split; [|split_and!; vm_compute; reflexivity]. intros [E|E].
    + assert (K : String.eqb "bo" (cf_owner (ex_cfg (w_ex w_paused))) = false) by (vm_compute; reflexivity). apply String.eqb_neq in K. exact (K E).
    + assert (K : bool_decide (("bo" : string) ∈ cf_guardians (ex_cfg (w_ex w_paused))) = false) by (vm_compute; reflexivity). apply bool_decide_eq_false in K. exact (K E).
Qed.

(** ** C54 *)
(** A deposit falls in an event only if its owner makes the call; or it is the exchange owner's and a guardian withdraws it
    for them; or it refunds the part of a transfer with notification that the receiver did not use. *)
Theorem C54_deposits w ev w' a t :
  w_ok w -> w_step w ev = Some w' -> held_by (w_ex w') a t < held_by (w_ex w) a t ->
  (exists e x, ev = EvCall e x /\ e_caller e = a) \/
  (exists e u y z, ev = EvCall e (CWithdrawOwner u y z) /\ a = cf_owner (ex_cfg (w_ex w)) /\ trusted (w_ex w) (e_caller e)) \/
  (exists i s x, w_flights w !! i = Some (Leaving (PMft t s a x)) /\ mft_pool_of t = None /\ held_by (w_ex w) a t <= held_by (w_ex w') a t + x).
Proof.
  intros Hok Hs Hlt. destruct (w_step_happens _ _ _ Hs) as [Hn Hh]. eapply happens_lowers; eauto. eapply ex_wf_later; [exact Hn|apply Hok].
Qed.
Print Assumptions C54_deposits.
(** All three happen: bo withdraws; a guardian withdraws what the owner holds; al takes back what bo did not use. *)
Definition C54_events : list Event :=
  [ EvCall (env 118 "own" 1) (CExtendGuardians ["gu"]);
    EvCall (env 119 "bo" 1) (CDonateToken "a" (Some 100) false);
    EvCall (env 120 "al" 1) (CMftTransferCall "a" "bo" (Some 700)) ].
Definition w_54 : World := default w_rich (w_run w_rich C54_events).
Definition falls (w : World) (ev : Event) (a t : AccountId) (x : N) : bool :=
  match w_step w ev with Some w' => held_by (w_ex w') a t + x =? held_by (w_ex w) a t | None => false end.
Example C54_ex :
  w_run w_rich C54_events = Some w_54 /\ falls w_54 (EvCall (env 121 "bo" 1) (CWithdraw "a" 5 false None)) "bo" "a" 5 = true /\
  falls w_54 (EvCall (env 121 "gu" 1) (CWithdrawOwner "a" 7 None)) "own" "a" 7 = true /\
  falls w_54 (EvMftResolve (w_next w_rich) (env 121 "ref" 0) (Some 300)) "bo" "a" 300 = true.
Proof. split; [apply run_default; vm_compute; reflexivity|]. split_and!; vm_compute; reflexivity. Qed.
