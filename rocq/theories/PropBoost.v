(** * C79-C80: the boost farming contract's stakes, tokens and rewards *)
From Verif Require Import Base BaseLemmas Boost SpecBoost BoostInv BoostCalls.

(** ** C79: totals are exact and the tokens are there *)
Theorem C79_totals fl w s sd :
  zero_extra fl -> breach fl w -> b_seeds (bw_c w) !! s = Some sd ->
  bs_amount sd = all_stakes staked s (bw_c w) /\ bs_power sd = all_stakes (power fl) s (bw_c w).
Proof.
  intros Z H Hs. destruct (breach_inv fl w Z H) as [I _ _]. destruct (bi_seed _ _ _ I s sd Hs) as [A1 A2 _ _ _ _]. auto.
Qed.
(** Of every token the contract holds at least the stakes, the slashed stakes and all rewards ever deposited. *)
Theorem C79_tokens fl w t :
  zero_extra fl -> breach fl w ->
  seed_total (bw_c w) t + shares_get (b_slashed (bw_c w)) t + all_farms (in_token bf_total t) (bw_c w)
  <= shares_get (bw_hold w) t.
Proof. intros Z H. apply (wb_hold _ _ (breach_inv fl w Z H)). Qed.
(** The counters shown by the contract are exact. *)
Theorem C79_counters fl w :
  zero_extra fl -> breach fl w ->
  b_farmer_count (bw_c w) = N.of_nat (size (b_farmers (bw_c w))) /\
  b_farm_count (bw_c w) = live_farms (fun _ => 1) (bw_c w).
Proof. intros Z H. destruct (breach_inv fl w Z H) as [I _ _]. split; [apply (bi_farmers _ _ _ I)|apply (bi_farms _ _ _ I)]. Qed.
(** The contract holds the NEAR of the farmers' registrations. *)
Theorem C79_near fl w :
  zero_extra fl -> breach fl w -> STORAGE_BALANCE_MIN_BOUND * N.of_nat (size (b_farmers (bw_c w))) <= bw_near w.
Proof.
  intros Z H. destruct (breach_inv fl w Z H) as [I _ Ne]. unfold near_due in Ne. now rewrite (bi_farmers _ _ _ I) in Ne.
Qed.

(** ** C80: rewards *)
(** A farm distributes at most what was deposited.  What farmers have claimed and the beneficiary's part, together
    with everything still owed to stakes, is at most what was distributed. *)
Theorem C80_farm fl w s sd i f :
  zero_extra fl -> breach fl w -> b_seeds (bw_c w) !! s = Some sd -> bs_farms sd !! i = Some f ->
  bf_dist f <= bf_total f /\
  B_DIV * (bf_claimed f + bf_benef f) + all_stakes (due fl i f) s (bw_c w) <= B_DIV * bf_dist f.
Proof.
  intros Z H Hs Hf. destruct (breach_inv fl w Z H) as [I _ _]. destruct (bi_seed _ _ _ I s sd Hs) as [_ _ _ A4 _ A6].
  split; [apply (A4 i f Hf)|apply (A6 i f Hf)].
Qed.
(** A removed farm is settled to the last unit. *)
Theorem C80_removed fl w s i f :
  zero_extra fl -> breach fl w -> b_outdated (bw_c w) !! (s, i) = Some f ->
  bf_claimed f + bf_benef f = bf_total f /\ bf_dist f = bf_total f.
Proof.
  intros Z H Hf. destruct (breach_inv fl w Z H) as [I _ _]. destruct (bi_old _ _ _ I s i f Hf) as [[A B] _]. split; lia.
Qed.
(** The farmers' rewards in a token are exactly what the farms recorded as claimed ... *)
Theorem C80_rewards fl w t :
  zero_extra fl -> breach fl w -> all_rewards t (bw_c w) = all_farms (in_token bf_claimed t) (bw_c w).
Proof. intros Z H. destruct (breach_inv fl w Z H) as [I _ _]. apply (bi_rewards _ _ _ I). Qed.
(** ... so the contract can pay all of them, beside the beneficiary and the stakes. *)
Lemma claimed_le_total fl now c i f s sd :
  binv fl now c -> b_seeds c !! s = Some sd -> bs_farms sd !! i = Some f -> bf_claimed f + bf_benef f <= bf_total f.
Proof.
  intros I Hs Hf. destruct (bi_seed _ _ _ I s sd Hs) as [_ _ _ A4 _ A6]. specialize (A6 i f Hf). destruct (A4 i f Hf) as [A _].
  assert (0 < B_DIV) by (vm_compute; reflexivity).
  assert (B_DIV * (bf_claimed f + bf_benef f) <= B_DIV * bf_dist f) as B by lia. apply N.mul_le_mono_pos_l in B; lia.
Qed.
Theorem C80_payable fl w t :
  zero_extra fl -> breach fl w ->
  seed_total (bw_c w) t + shares_get (b_slashed (bw_c w)) t + all_rewards t (bw_c w) + all_farms (in_token bf_benef t) (bw_c w)
  <= shares_get (bw_hold w) t.
Proof.
  intros Z H. destruct (breach_inv fl w Z H) as [I Ho _]. specialize (Ho t). unfold assets in Ho.
  rewrite (bi_rewards _ _ _ I t).
  assert (all_farms (in_token bf_claimed t) (bw_c w) + all_farms (in_token bf_benef t) (bw_c w)
          <= all_farms (in_token bf_total t) (bw_c w)); [|lia].
  unfold all_farms.
  assert (live_farms (in_token bf_claimed t) (bw_c w) + live_farms (in_token bf_benef t) (bw_c w)
          <= live_farms (in_token bf_total t) (bw_c w)).
  { unfold live_farms. rewrite <- msum_add. apply msum_le. intros s sd Hs.
    rewrite <- msum_add. apply msum_le. intros i f Hf. unfold in_token. destruct (String.eqb _ _); [|lia].
    eapply claimed_le_total; eauto. }
  assert (old_farms (in_token bf_claimed t) (bw_c w) + old_farms (in_token bf_benef t) (bw_c w)
          <= old_farms (in_token bf_total t) (bw_c w)).
  { unfold old_farms. rewrite <- msum_add. apply msum_le. intros [s i] f Hf. unfold in_token. destruct (String.eqb _ _); [|lia].
    destruct (bi_old _ _ _ I s i f Hf) as [[A B] _]. lia. }
  lia.
Qed.

(** What a claim pays: for every farm of the seed, brought up to date, the floor of what it owes to the stake. *)
Definition stake_or_new (F : BFarmer) (s : SeedId) : BStake :=
  match b_stakes F !! s with Some k => k | None => mkBStake 0 0 0 0 0 ∅ ∅ end.
Definition payout (fl : Floats) (sd : BSeed) (k : BStake) (t : AccountId) : N :=
  msum (fun i f => in_token (fun f => due fl i f k / B_DIV) t f) (bs_farms sd).
Theorem C80_claim fl now c a s c' :
  zero_extra fl -> claim_reward_by_seed fl now c a s = Some c' ->
  exists F sd F', b_farmers c !! a = Some F /\ get_seed now c s = Some sd /\ b_farmers c' !! a = Some F' /\
    forall t, shares_get (b_rewards F') t = shares_get (b_rewards F) t + payout fl sd (stake_or_new F s) t.
Proof.
  intros Z H. unfold claim_reward_by_seed in H. apply bind_Some in H as (u1 & _ & H).
  apply bind_Some in H as (F & HF & H). apply bind_Some in H as (sd & Hg & H).
  apply bind_Some in H as ([F' sd'] & Hcl & H). injection H as <-.
  exists F, sd, F'. split; [exact HF|]. split; [exact Hg|]. split; [apply lookup_insert|].
  apply do_claim_Some in Hcl as (k & k' & res & rw & t & Hk & Hres & Hrw & _ & _ & -> & _).
  intros tk. cbn [b_rewards with_stake with_rewards]. rewrite Hrw. f_equal. unfold payout.
  apply (msum_map_all _ _ _ _ _ Hres). intros i f [f' n] _ Hy.
  apply claim_farm_Some in Hy as (-> & _ & ->). unfold tok_amount, in_token, due. cbn [fst snd bf_token].
  destruct (String.eqb _ _); [|reflexivity]. unfold stake_or_new. destruct Hk as [->|[-> [r ->]]]; [reflexivity|].
  change (mkBStake 0 0 0 0 0 ∅ ∅) with (empty_stake ∅). rewrite !power_zero by done. now rewrite !N.mul_0_r.
Qed.

(** Claiming again in the same block pays nothing. *)
Lemma farm_update_idem now p p' f f' g' :
  farm_update now p f = Some f' ->
  bf_token g' = bf_token f' -> bf_start g' = bf_start f' -> bf_total g' = bf_total f' -> bf_at g' = bf_at f' ->
  bf_dist g' = bf_dist f' -> farm_update now p' g' = Some g'.
Proof.
  intros H E1 E2 E3 E4 E5. unfold farm_update in *. rewrite E4.
  destruct (now <=? bf_at f) eqn:B.
  { injection H as <-. now rewrite B. }
  assert (St : farm_status now g' = farm_status now f') by (unfold farm_status; now rewrite E2, E3, E5).
  rewrite St. destruct (farm_status now f) eqn:Sf.
  - injection H as <-. rewrite B, Sf. reflexivity.
  - injection H as <-. rewrite B, Sf. reflexivity.
  - destruct (now <=? bf_at f') eqn:B'; [reflexivity|exfalso]. bool_inv.
    inv. destruct (0 <? p); inv; subst; cbn in *; lia.
  - destruct (now <=? bf_at f') eqn:B'; [reflexivity|exfalso]. bool_inv. inv; subst; cbn in *; lia.
Qed.
Theorem C80_once fl w now a s c1 c2 F1 F2 :
  zero_extra fl -> breach fl w -> claim_reward_by_seed fl now (bw_c w) a s = Some c1 ->
  claim_reward_by_seed fl now c1 a s = Some c2 ->
  b_farmers c1 !! a = Some F1 -> b_farmers c2 !! a = Some F2 ->
  forall t, shares_get (b_rewards F2) t = shares_get (b_rewards F1) t.
Proof.
  intros Z Hw H1 H2 HF1 HF2 t. destruct (breach_inv fl w Z Hw) as [I0 _ _].
  destruct (C80_claim fl now c1 a s c2 Z H2) as (F & sd2 & F' & E1 & Hg2 & E2 & Pay).
  rewrite HF1 in E1. injection E1 as <-. rewrite HF2 in E2. injection E2 as <-. rewrite Pay.
  unfold claim_reward_by_seed in H1. apply bind_Some in H1 as (u1 & _ & H1).
  apply bind_Some in H1 as (F & HF & H1). apply bind_Some in H1 as (sd & Hg & H1).
  apply bind_Some in H1 as ([F' sd'] & Hcl & H1). injection H1 as <-.
  cbn [set_farmer set_farmers b_farmers] in HF1. rewrite lookup_insert in HF1. injection HF1 as <-.
  unfold get_seed in Hg, Hg2. apply bind_Some in Hg as (sd0 & Hs0 & Hup). apply bind_Some in Hg2 as (sd1 & Hs1 & Hup2).
  cbn [set_farmer set_farmers set_seed set_seeds b_seeds] in Hs1. rewrite lookup_insert in Hs1. injection Hs1 as <-.
  destruct (touch_seed _ _ _ _ _ _ _ I0 Hs0 Hup) as [I1 _].
  assert (LS : b_seeds (set_seed (bw_c w) s sd) !! s = Some sd) by apply lookup_insert.
  pose proof (si_farm _ _ _ _ (bi_seed _ _ _ I1 s sd LS)) as Ok.
  apply do_claim_Some in Hcl as (k & k' & res & rw & tt & Hk & Hres & Hrw & (r & _ & Ek') & _ & -> & ->).
  assert (St : stake_or_new (with_stake (with_rewards F rw) s k') s = k').
  { unfold stake_or_new. cbn [with_stake b_stakes]. now rewrite lookup_insert. }
  rewrite St. unfold payout. rewrite msum_zero; [lia|]. intros i f2 Hf2.
  unfold seed_update in Hup, Hup2. inv; subst.
  match goal with E : map_all (fun _ f => farm_update now (bs_power sd0) f) _ = Some _ |- _ => rename E into M0 end.
  match goal with E : map_all _ (bs_farms (with_total _ _ _)) = Some _ |- _ => rename E into M1 end.
  cbn [bs_farms with_farms with_total] in *.
  destruct (map_all_inv _ _ _ _ _ M1 Hf2) as (g & Hg & Hu).
  rewrite lookup_fmap in Hg. destruct (res !! i) as [[y n]|] eqn:Hr; [|discriminate]. injection Hg as <-.
  destruct (map_all_inv _ _ _ _ _ Hres Hr) as (f1 & Hf1 & Hc). apply claim_farm_Some in Hc as (-> & _ & _).
  destruct (map_all_inv _ _ _ _ _ M0 Hf1) as (f0 & Hf0 & Hu0).
  cbn [fst] in Hu. erewrite (farm_update_idem now _ _ f0 f1) in Hu; [|exact Hu0|reflexivity..]. injection Hu as <-.
  unfold in_token, due. cbn [bf_token bf_rps k_rps with_rps with_ratios].
  match type of Hf1 with ?m !! _ = _ => assert (E : default 0 (new_rps m !! i) = bf_rps f1) end.
  { unfold new_rps. rewrite lookup_omap, Hf1. cbn. destruct (0 <? bf_total f1) eqn:T; [reflexivity|].
    bool_inv. destruct (Ok i f1 Hf1) as [_ O2]. cbn. symmetry. apply O2. lia. }
  rewrite E, N.sub_diag, N.mul_0_l, div_zero_l. now destruct (String.eqb _ _).
Qed.
Print Assumptions C79_totals.
Print Assumptions C79_tokens.
Print Assumptions C79_counters.
Print Assumptions C79_near.
Print Assumptions C80_farm.
Print Assumptions C80_removed.
Print Assumptions C80_rewards.
Print Assumptions C80_payable.
Print Assumptions C80_claim.
Print Assumptions C80_once.

(** ** A case: two farmers, a boosted seed, a farm, a lock broken early, a removed farm *)
Definition ex_fl : Floats := mkFloats (fun b d l => b / d / l) (fun p r => p * r / 10).
Lemma ex_fl_zero : zero_extra ex_fl.
Proof. intros r. change (0 * r / 10 = 0). rewrite N.mul_0_l. apply div_zero_l. Qed.
Definition ex_t0 : N := 1700000000 * 10 ^ 9.
Definition ex_day : N := 86400 * 10 ^ 9.
Definition ex_events : list bevent := [
  BvCall ex_t0 "owner" 1 (BCreateSeed "lp" 18 (Some 1000) (Some 100));
  BvCall ex_t0 "owner" 1 (BCreateSeed "love" 2 (Some 1) None);
  BvCall ex_t0 "owner" 1 (BModifyBooster "love" (2, {["lp" := 10]}));
  BvCall ex_t0 "owner" 1 (BCreateFarm "lp" "ref" 0 (10 ^ 6));
  BvCall ex_t0 "owner" 1 (BCreateFarm "lp" "lp" 0 500);
  BvCall ex_t0 "ann" (2 * 10 ^ 23) (BStorageDeposit None);
  BvCall ex_t0 "ann" (10 ^ 23) (BStorageDeposit (Some "bob"));
  BvToken ex_t0 false "lp" "ann" 30000 MFree;
  BvToken ex_t0 false "lp" "bob" 20000 (MLock (86400 * 180));
  BvToken ex_t0 false "ref" "dan" (2 * 10 ^ 6) (MReward "lp" 0);
  BvToken ex_t0 false "lp" "dan" 700 (MReward "lp" 1);
  BvToken (ex_t0 + ex_day) false "love" "ann" 2000 MFree;
  BvCall (ex_t0 + ex_day + ex_day / 3) "bob" 0 (BClaim "lp");
  BvCall (ex_t0 + 3 * ex_day) "bob" 1 (BForceUnlock "lp" 5000);
  BvCall (ex_t0 + 3 * ex_day) "owner" 1 (BRemoveFarm "lp" 0)].
Definition ex_w : option BWorld := brun ex_fl (bw_init ex_t0 "owner" 0) ex_events.
Lemma brun_reach fl w l w' : breach fl w -> brun fl w l = Some w' -> breach fl w'.
Proof.
  revert w. induction l as [|e l IH]; intros w H R; cbn [brun] in R; [now injection R as <-|].
  apply bind_Some in R as (w1 & H1 & R). eapply IH; [|exact R]. eapply breach_step; eauto.
Qed.
Definition ex_show (w : BWorld) :=
  (seed_total (bw_c w) "lp", b_slashed (bw_c w) !! "lp",
   (fun F => (shares_get (b_rewards F) "ref", shares_get (b_rewards F) "lp", holding "lp" F)) <$> b_farmers (bw_c w) !! "ann",
   (fun F => (shares_get (b_rewards F) "ref", shares_get (b_rewards F) "lp", holding "lp" F)) <$> b_farmers (bw_c w) !! "bob",
   shares_get (bw_hold w) "lp", shares_get (bw_hold w) "ref", bw_near w).
Example C79_case : ex_show <$> ex_w = Some
  (49902, Some 98, Some (499999, 249, (30000, 0, 0, 0, 0)),
   Some (954544, 340, (4902, 15000, 22500, 1715552000000000000, 15552000)), 50700, 2000000, 200000000000000000000007).
Proof. vm_compute. reflexivity. Qed.
Example C79_case_reach : exists w, ex_w = Some w /\ breach ex_fl w.
Proof.
  pose proof C79_case as H. apply fmap_Some in H as (w & E & _). exists w. split; [exact E|].
  eapply brun_reach; [apply (breach_init ex_fl ex_t0 "owner" 0)|exact E].
Qed.
