(** * C107: every event of the exchange changes a pool by pool operations alone, and the value of a simple pool's shares does not fall.
    Vocabulary: SpecPaths.v, SpecWorld.v. *)
From Verif Require Import Base BaseLemmas SimplePool SpecSimple SimplePoolProofs SimplePoolInv StableMath StablePool Rates Echo Twap Account Pool Exchange
  SpecExchange AccountProofs PoolFacts ExchangeProofs ExchangeInv SpecWorld WorldProofs HistoryProofs SpecPaths PathProofs PropWorld PropSettings ExExample.

(** Whatever happens to the exchange - a call, tokens arriving with a message, a callback, an oracle's answer - a pool changes exactly as by the
    operations which the event stands for, one after the other, with the rates and prices stored before. *)
Theorem C107_refines w ev w' pid p : w_step w ev = Some w' -> ex_pool (w_ex w) pid = Some p ->
  exists os p', event_ops w ev pid os /\ pl_run (ex_rates (w_ex w)) (w_now w') p os = Some p' /\ ex_pool (w_ex w') pid = Some p'.
Proof. intros H Hp. apply (path_step _ _ _ pid) in H as (os & Ho & P). destruct (P p Hp) as (p' & A & B). eauto. Qed.
Print Assumptions C107_refines.

(** An event which stands for no operation leaves the pool as it is. *)
Theorem C107_untouched w ev w' pid p : w_step w ev = Some w' -> ex_pool (w_ex w) pid = Some p -> (forall os, event_ops w ev pid os -> os = []) ->
  ex_pool (w_ex w') pid = Some p.
Proof.
  intros H Hp Hn. destruct (C107_refines _ _ _ _ _ H Hp) as (os & p' & Ho & R & ->). rewrite (Hn os Ho) in R. cbn [pl_run] in R. now symmetry.
Qed.
Print Assumptions C107_untouched.

Lemma above_reach pid m w w' n : above pid m w w' n -> w_reach w w'.
Proof. induction 1; [constructor|econstructor; eauto]. Qed.
(** Over any history, the root of the product of the reserves of a simple pool per share falls by at most 1/m for every liquidity change, where [m] is
    the smallest supply in the meantime (10^24 shares are issued to the first provider): root'/supply' >= root/supply - n/m. *)
Theorem C107_value pid m w w' n q : w_ok w -> 0 < m -> cf_admin_fee (ex_cfg (w_ex w)) <= 10000 -> above pid m w w' n -> ex_pool (w_ex w) pid = Some (PSimple q) ->
  exists q', ex_pool (w_ex w') pid = Some (PSimple q') /\
    sp_root q * sp_supply q' * m <= sp_root q' * sp_supply q * m + n * sp_supply q * sp_supply q'.
Proof.
  intros Hok Hm Hf H Hq. cut (m <= supply_at (w_ex w') pid /\ exists q', ex_pool (w_ex w') pid = Some (PSimple q') /\ sp_wf q' /\ worth_kept m (sp_root q) (sp_supply q) n q').
  { intros (_ & q' & A & _ & B). exists q'. split; [exact A|exact B]. }
  induction H as [Hs|w1 n ev w2 Ha IH Hst Hs].
  - split; [done|]. exists q. split_and!; [exact Hq| |unfold worth_kept; lia]. destruct Hok as [Hwf _]. apply (ex_wf_pool _ _ _ _ Hwf) in Hq. cbn [pl_reachable] in Hq.
    now apply sp_reachable_wf.
  - split; [done|]. destruct IH as (Hs1 & q1 & Hq1 & Hw1 & K). pose proof (above_reach _ _ _ _ _ Ha) as Hr. destruct (C68_protocol_fee _ _ Hr) as [Hc _].
    destruct (C107_refines _ _ _ _ _ Hst Hq1) as (os & p' & Ho & R & Hp'). unfold supply_at in Hs1, Hs. rewrite Hq1 in Hs1. rewrite Hp' in Hs. cbn [pl_supply] in Hs1.
    assert (F : cf_admin_fee (ex_cfg (w_ex w1)) <= FEE_DIVISOR) by (change FEE_DIVISOR with 10000; lia).
    destruct (event_kind _ _ _ _ Ho F) as (A & B & C).
    destruct (run_value _ _ m _ _ Hm _ _ _ _ Hw1 Hs1 A B R Hs K) as (q' & -> & Hw' & K'). exists q'. split_and!; [exact Hp'|done|].
    eapply N.le_trans; [exact K'|]. apply N.add_le_mono_l, N.mul_le_mono_r, N.mul_le_mono_r. lia.
Qed.
Print Assumptions C107_value.

(** Without liquidity changes it never falls, whatever is traded, transferred, registered or configured. *)
Theorem C107_trades pid w w' q : w_ok w -> cf_admin_fee (ex_cfg (w_ex w)) <= 10000 -> above pid 1 w w' 0 -> ex_pool (w_ex w) pid = Some (PSimple q) ->
  exists q', ex_pool (w_ex w') pid = Some (PSimple q') /\ sp_root q * sp_supply q' <= sp_root q' * sp_supply q.
Proof. intros A B C D. destruct (C107_value pid 1 w w' 0 q A eq_refl B C D) as (q' & E & F). exists q'. split; [exact E|lia]. Qed.
Print Assumptions C107_trades.

(** bob trades there and back, alice adds and removes liquidity: the events stand for the operations named, and the value per share rises *)
Definition C107_trade : Event := EvCall (env 120 "bo" 1) (CSwap [ASwap 0 "a" (Some 5000) "b" 0; ASwap 0 "b" None "a" 0] None false).
Definition C107_add : Event := EvCall (env 121 "al" 1) (CAddLiquidity 0 [5000; 5000] None).
Definition C107_remove : Event := EvCall (env 122 "al" 1) (CRemoveLiquidity 0 (10 ^ 23) [0; 0]).
Definition C107_w1 : World := default w_live (w_step w_live C107_trade).
Definition C107_w2 : World := default w_live (w_step C107_w1 C107_add).
Definition C107_w3 : World := default w_live (w_step C107_w2 C107_remove).
Definition root_and_supply (w : World) : option (N * N) := match ex_pool (w_ex w) 0 with Some (PSimple q) => Some (sp_root q, sp_supply q) | _ => None end.
Lemma w_live_ok : w_ok w_live.
Proof. eapply w_reach_ok; [apply w_start_ok, w_fresh_start|]. eapply w_run_reach; [apply w_reach_refl|apply w_live_runs]. Qed.
Example C107_ex : w_ok w_live /\ cf_admin_fee (ex_cfg (w_ex w_live)) <= 10000 /\ above 0 (9 * 10 ^ 23) w_live C107_w3 2 /\ above 0 1 w_live C107_w1 0 /\
  root_and_supply w_live = Some (848528, 1000000000000000000000000) /\ root_and_supply C107_w1 = Some (848542, 1000000041247732537346152) /\ root_and_supply C107_w2 = Some (853256, 1005554294608113918603234) /\ root_and_supply C107_w3 = Some (768401, 905554294608113918603234).
Proof.
  split; [apply w_live_ok|]. split; [vm_compute; discriminate|].
  assert (S1 : w_step w_live C107_trade = Some C107_w1) by (apply run_default; vm_compute; reflexivity).
  assert (S2 : w_step C107_w1 C107_add = Some C107_w2) by (apply run_default; vm_compute; reflexivity).
  assert (S3 : w_step C107_w2 C107_remove = Some C107_w3) by (apply run_default; vm_compute; reflexivity).
  split; [|split].
  - change 2 with (0 + changes w_live C107_trade + changes C107_w1 C107_add + changes C107_w2 C107_remove).
    eapply above_step; [eapply above_step; [eapply above_step; [apply above_start|exact S1|]|exact S2|]|exact S3|]; vm_compute; discriminate.
  - change 0 with (0 + changes w_live C107_trade) at 2. eapply above_step; [apply above_start|exact S1|]; vm_compute; discriminate.
  - split_and!; vm_compute; reflexivity.
Qed.
