(** * C26 storage is prepaid, C38 pools are permanent, C39 volume counters, over all histories *)
From Verif Require Import PropSimple PropStable.
From Verif Require Import Base BaseLemmas SimplePool SimplePoolProofs SpecSimple SimplePoolInv StableMath StablePool
  SpecStable StablePoolProofs StablePoolInv Rates Echo Twap Account Pool Exchange SpecExchange AccountProofs PoolFacts
  ExchangeProofs ExchangeInv ExchangeEffect ExchangeFrames SpecWorld WorldProofs ExExample PropWorld SpecSwap SwapProofs PropSwap
  SpecHistory HistoryProofs.

(** ** C26 *)
(** After a call every account is unchanged, or its NEAR covers its storage; the owner's account is
    exempt, because donations and unclaimed refunds are put there without the check. *)
Theorem C26_call c e x c' ps a :
  ex_call c e x = Some (c', ps) -> a <> cf_owner (ex_cfg c) -> ex_account c' a = ex_account c a \/ covered_at c' a.
Proof. intros H Ha. destruct (ex_call_saved _ _ _ _ _ H a) as [S|[S|S]]; auto; contradiction. Qed.
Print Assumptions C26_call.
Theorem C26_deposit c e s x m c' ps a :
  ex_ft_on_transfer c e s x m = Some (c', ps) -> a <> cf_owner (ex_cfg c) -> ex_account c' a = ex_account c a \/ covered_at c' a.
Proof. intros H Ha. destruct (ex_ft_on_transfer_saved _ _ _ _ _ _ _ H a) as [S|[S|S]]; auto; contradiction. Qed.
Print Assumptions C26_deposit.
(** In all executions an account is covered at all times, as long as it never is the owner. *)
Theorem C26_history a w0 w :
  w_ok w0 -> covered_at (w_ex w0) a ->
  w_along (fun w _ => a <> cf_owner (ex_cfg (w_ex w))) w0 w -> covered_at (w_ex w) a.
Proof.
  intros Hok Ha H. assert (w_ok w /\ covered_at (w_ex w) a) as [_ ?]; [|done].
  induction H as [|w ev w' Hr [IHok IH] Hne Hs]; [done|]. pose proof (w_step_any _ _ _ IHok Hs) as (Hok' & _ & _). split; [done|].
  destruct (w_step_happens _ _ _ Hs) as [Hn Hh]. eapply happens_covered; eauto. eapply ex_wf_later; [exact Hn|apply IHok].
Qed.
Print Assumptions C26_history.
(** The exemption is needed: a token donation can leave the owner's account without cover, here after
    the owner took back the NEAR not needed. *)
Definition C26_events : list Event :=
  [EvCall (env 120 "own" 1) (CStorageWithdraw 0); EvCall (env 121 "bo" 1) (CDonateToken "a" None false)].
Definition w_donated : World := default w_live (w_run w_live C26_events).
Theorem C26_owner_refuted :
  w_run w_live C26_events = Some w_donated /\ covered_at (w_ex w_live) "own" /\ ~ covered_at (w_ex w_donated) "own".
Proof. split; [apply run_default; vm_compute; reflexivity|]. split; vm_compute; [discriminate|]. intros H. now apply H. Qed.
Print Assumptions C26_owner_refuted.
Example C26_ex :
  w_ok w_live /\ covered_at (w_ex w_live) "al" /\ is_Some (ex_account (w_ex w_live) "al") /\
  forallb (fun ev => done_ (w_step w_live ev)) [EvCall (env 120 "al" 1) (CRegisterTokens ["c"; "d"])] = true.
Proof.
  assert (Hok : w_ok w_live).
  { eapply w_reach_ok; [apply w_start_ok, w_fresh_start|]. eapply w_run_reach; [apply w_reach_refl|apply w_live_runs]. }
  split; [done|]. split; [vm_compute; discriminate|]. split; [|vm_compute; reflexivity].
  assert (H : bool_decide (is_Some (ex_account (w_ex w_live) "al")) = true) by (vm_compute; reflexivity). now apply bool_decide_eq_true in H.
Qed.

(** ** C38 *)
(** In all later states the pool with a given id is still there, of the same kind and with the same tokens. *)
Theorem C38_permanent w0 w pid p :
  w_ok w0 -> w_reach w0 w -> ex_pool (w_ex w0) pid = Some p ->
  exists p', ex_pool (w_ex w) pid = Some p' /\ pl_kind p' = pl_kind p /\ pl_tokens p' = pl_tokens p /\ pl_decimals p' = pl_decimals p.
Proof.
  intros Hok H Hp. assert (w_ok w /\ pools_extend (w_ex w0) (w_ex w)) as [_ Hx].
  - induction H as [|w ev w' Hr [IHok IH] Hs]; [split; [done|now apply pools_extend_refl]|].
    pose proof (w_step_any _ _ _ IHok Hs) as (Hok' & _ & (_ & Hx & _)). split; [done|]. eapply pools_extend_trans; eauto.
  - destruct (Hx _ _ Hp) as (p' & Hp' & A & B & C). exists p'. auto.
Qed.
Print Assumptions C38_permanent.
(** A pool is only added by the calls that create pools, with the next free id, empty and with the tokens given; no
    event removes a pool. *)
Theorem C38_consecutive w ev w' :
  w_ok w -> w_step w ev = Some w' ->
  match ev with
  | EvCall _ (CAddSimplePool ts _) =>
      exists p, ex_pools (w_ex w') = ex_pools (w_ex w) ++ [p] /\ pl_kind p = SIMPLE_POOL /\ pl_tokens p = ts /\
        (forall t, pl_reserve p t = 0) /\ forall a, pl_share_of p a = 0
  | EvCall _ (CAddStablePool k ts _ _ _) =>
      exists p, ex_pools (w_ex w') = ex_pools (w_ex w) ++ [p] /\ pl_kind p = STABLE_SWAP k /\ pl_tokens p = ts /\
        (forall t, pl_reserve p t = 0) /\ forall a, pl_share_of p a = 0
  | _ => length (ex_pools (w_ex w')) = length (ex_pools (w_ex w))
  end.
Proof.
  intros [Hwf _] Hs. pose proof (w_step_happens _ _ _ Hs) as [Hn Hh]. pose proof (ex_wf_later _ _ _ Hn Hwf) as Hwf'.
  destruct (adds_pool ev) eqn:Ea.
  - destruct ev as [e x| | | | | | | | | |]; try discriminate Ea. unfold w_step in Hs. cbv zeta in Hs. bnd Hs u Hu. apply next_time_inv in Hu as [Hn' HW].
    bnd Hs u' Hu'. bnd Hs q Hq. destruct q as [c' ps]. injection Hs as <-. destruct (w_queue_ex w c' (w_hold w) (w_flights w) ps (e_now e)) as (E & F & _).
    rewrite E, F in *. apply ex_call_length in Hq as [[_ Hq]|(p & _ & Hp & A & B & C)]; [congruence| |done|done].
    destruct x; try discriminate Ea; destruct C as [C1 C2]; exists p; auto.
  - pose proof (happens_length _ _ _ _ _ Hwf' Hh Ea) as Hl. destruct ev as [e x| | | | | | | | | |]; try exact Hl. now destruct x.
Qed.
Print Assumptions C38_consecutive.
Example C38_ex : w_ok w_live /\ w_reach w_live w_rich /\ is_Some (ex_pool (w_ex w_live) 0) /\
  length (ex_pools (w_ex w_live)) = 1%nat /\ length (ex_pools (w_ex w_rich)) = 3%nat.
Proof.
  split; [eapply w_reach_ok; [apply w_start_ok, w_fresh_start|]; eapply w_run_reach; [apply w_reach_refl|apply w_live_runs]|].
  split; [eapply w_run_reach; [apply w_reach_refl|apply w_rich_runs]|]. split; [|split; vm_compute; reflexivity].
  assert (H : done_ (ex_pool (w_ex w_live) 0) = true) by (vm_compute; reflexivity). destruct (ex_pool (w_ex w_live) 0); [eauto|discriminate H].
Qed.

(** ** C39 *)
(** In one event the counters of the existing pools grow by exactly the trades made in it. *)
Theorem C39_step w ev w' :
  w_ok w -> w_step w ev = Some w' -> N.of_nat (length (ex_pools (w_ex w'))) <= 2 ^ 32 ->
  exists ts, (ts = [] \/ exists e r c1, trades e r (w_ex w) ts c1) /\
  forall pid i, pid < N.of_nat (length (ex_pools (w_ex w))) ->
    fst (vol_at (w_ex w') pid i) = fst (vol_at (w_ex w) pid i) + counted (slot_in (w_ex w)) td_paid ts pid i /\
    snd (vol_at (w_ex w') pid i) = snd (vol_at (w_ex w) pid i) + counted (slot_out (w_ex w)) td_got ts pid i.
Proof.
  intros [Hwf _] Hs Hl. pose proof (w_step_happens _ _ _ Hs) as [Hn Hh]. pose proof (ex_wf_later _ _ _ Hn Hwf) as Hwf'.
  exact (happens_counts _ _ _ _ _ Hwf' Hh Hl).
Qed.
Print Assumptions C39_step.
(** The counters of existing pools never decrease. *)
Theorem C39_monotone w0 w pid i :
  w_ok w0 -> w_reach w0 w -> N.of_nat (length (ex_pools (w_ex w))) <= 2 ^ 32 -> pid < N.of_nat (length (ex_pools (w_ex w0))) ->
  fst (vol_at (w_ex w0) pid i) <= fst (vol_at (w_ex w) pid i) /\ snd (vol_at (w_ex w0) pid i) <= snd (vol_at (w_ex w) pid i).
Proof.
  intros Hok H Hl Hp.
  assert (w_ok w /\ (length (ex_pools (w_ex w0)) <= length (ex_pools (w_ex w)))%nat /\ (fst (vol_at (w_ex w0) pid i) <= fst (vol_at (w_ex w) pid i) /\ snd (vol_at (w_ex w0) pid i) <= snd (vol_at (w_ex w) pid i))) as (_ & _ & ?); [|done].
  induction H as [|w ev w' Hr IH Hs]; [split; [done|]; split; lia|].
  assert (Hlen : w_ok w -> (length (ex_pools (w_ex w)) <= length (ex_pools (w_ex w')))%nat).
  { intros Hw. pose proof (C38_consecutive _ _ _ Hw Hs) as HC. destruct ev as [e x| | | | | | | | | |]; try lia.
    destruct x; try lia; destruct HC as (p & -> & _); rewrite app_length; lia. }
  assert (Hw : w_ok w) by (eapply w_reach_ok; eauto). specialize (Hlen Hw). destruct IH as (_ & IH1 & IH2); [lia|].
  pose proof (w_step_any _ _ _ Hw Hs) as (Hok' & _ & _). split; [done|]. split; [lia|].
  destruct (C39_step _ _ _ Hw Hs Hl) as (ts & _ & HT). destruct (HT pid i) as [A B]; [lia|]. rewrite A, B. lia.
Qed.
Print Assumptions C39_monotone.
(** bob trades in the first pool: the counter grows by the 5000 paid *)
Definition C39_events : list Event := [EvCall (env 120 "bo" 1) (CSwap [ASwap 0 "a" (Some 5000) "b" 0] None false)].
Definition w_traded : World := default w_rich (w_run w_rich C39_events).
Example C39_ex : w_run w_rich C39_events = Some w_traded /\ w_ok w_rich /\
  fst (vol_at (w_ex w_rich) 0 0) = 0 /\ fst (vol_at (w_ex w_traded) 0 0) = 5000 /\ 0 < snd (vol_at (w_ex w_traded) 0 0).
Proof.
  split; [apply run_default; vm_compute; reflexivity|].
  split; [|split; [|split]; vm_compute; reflexivity]. eapply w_reach_ok; [apply w_start_ok, w_fresh_start|].
  eapply w_run_reach; [|apply w_rich_runs]. eapply w_run_reach; [apply w_reach_refl|apply w_live_runs].
Qed.
