(** * Property theorems about the farming contract: C42-C53.
    Vocabulary: SpecFarming.v.  [freachable w]: the world [w] is reachable from deployment by any
    sequence of calls by anyone, token transfers, remote executions and callbacks, in any order. *)
From Verif Require Import Base BaseLemmas Farming SpecFarming FarmingProofs FarmingInv FarmingWorld.

(** ** A concrete history used for the non-vacuity examples *)
Definition sec (n : N) : N := n * 10 ^ 9.
Definition ex_terms : Terms := mkTerms "lp" "rew" 0 1000 60.
Definition ex_fid : string * N := ("lp", 0).
Definition ex_prefix : list fevent :=
  [EvCall (sec 100) "owner" (CCreateFarm (10 ^ 24) 200 ex_terms (Some 10));
   EvCall (sec 100) "alice" (CStorageDeposit "alice" (10 ^ 24) false);
   EvCall (sec 100) "bob" (CStorageDeposit "bob" (10 ^ 24) false);
   EvToken (sec 110) "lp" "alice" 300 None;
   EvToken (sec 120) "rew" "sponsor" 5500 (Some ex_fid);
   EvCall (sec 180) "alice" (CClaimFarm ex_fid);
   EvToken (sec 190) "lp" "bob" 700 None;
   EvDonate "lp" 5].
Definition ex_events : list fevent :=
  ex_prefix ++
  [EvCall (sec 305) "bob" (CClaimSeed "lp");
   EvCall (sec 310) "alice" (CWithdrawSeed 1 "lp" 100);
   EvCall (sec 311) "bob" (CWithdrawReward 1 "rew" (Some 1000))].
Definition ex_world (es : list fevent) : FWorld := default (fw_new "owner") (frun_exec (fw_new "owner") es).

Lemma frun_exec_run es : forall w w', frun_exec w es = Some w' -> frun w es w'.
Proof.
  induction es as [|e es IH]; intros w w' H; cbn [frun_exec] in H.
  - injection H as <-. constructor.
  - destruct (fstep w e) as [w1|] eqn:E; [|discriminate]. cbn [mbind option_bind] in H. econstructor; eauto.
Qed.
Lemma ex_reachable es : is_Some (frun_exec (fw_new "owner") es) -> freachable (ex_world es).
Proof.
  intros [w Hw]. exists "owner"%string, es. unfold ex_world. rewrite Hw. cbn. now apply frun_exec_run.
Qed.
Lemma is_Some_bool {A} (o : option A) : match o with Some _ => true | None => false end = true -> is_Some o.
Proof. destruct o; [eauto|discriminate]. Qed.

Example ex_world_reachable : freachable (ex_world ex_events).
Proof. apply ex_reachable, is_Some_bool. vm_compute. reflexivity. Qed.
Example ex_world_values :
  let c := w_c (ex_world ex_events) in
  (stake_of c "alice" "lp", stake_of c "bob" "lp", seed_total c "lp", reward_balance c "alice" "rew",
   reward_balance c "bob" "rew", inflight (ex_world ex_events) "rew", inflight (ex_world ex_events) "lp",
   match known_farm c ex_fid with
   | Some f => (d_undist (f_dist f), d_unclaimed (f_dist f), f_claimed f, f_reward f, d_rr (f_dist f))
   | None => (0, 0, 0, 0, 0) end)
  = (200, 700, 900, 1599, 400, 1000, 100, (2500, 1, 2999, 5500, 3)).
Proof. vm_compute. reflexivity. Qed.

(** ** C42: reward conservation, per farm *)
Theorem C42_farm_conservation owner es w fid f :
  frun (fw_new owner) es w -> known_farm (w_c w) fid = Some f ->
  deposited fid es = d_undist (f_dist f) + d_unclaimed (f_dist f) + f_claimed f /\
  f_benef f <= f_claimed f.
Proof.
  intros Hr Hf. destruct (evolve_run _ _ _ Hr (winv_new owner)) as (_ & H).
  destruct (H fid f) as (t & Hle & _); [reflexivity|done|]. cbn [farm_new f_reward] in Hle.
  assert (Hw : freachable w) by (exists owner, es; done).
  apply winv_reachable in Hw as ((H1 & _ & H3 & _) & _). unfold known_farm in Hf.
  assert (Hwf : farm_wf (w_now w) f).
  { destruct (fs_farms (w_c w) !! fid) as [g|] eqn:E.
    - injection Hf as <-. now destruct (H1 _ _ E).
    - now destruct (H3 _ _ Hf). }
  destruct Hwf as (E1 & E2 & _). lia.
Qed.
Print Assumptions C42_farm_conservation.
Example C42_ex : exists f, known_farm (w_c (ex_world ex_events)) ex_fid = Some f /\
  deposited ex_fid ex_events = 5500 /\ d_undist (f_dist f) = 2500 /\ f_claimed f = 2999.
Proof. eexists. split; [vm_compute; reflexivity|]. vm_compute. auto. Qed.

(** ** C43: what all farmers could claim together is covered by the unclaimed reward *)
(** the amount farmer [a] with record [r] would get from a farm standing at [rps] *)
Definition claimable (c : FState) (fid : FarmId) (rps : N) (a : AccountId) (r : Farmer) : N :=
  mget (fr_seeds r) (fst fid) * (rps - get_rps c a fid) / DENOM.

Lemma msum_div {K V} `{Countable K} (g : K -> V -> N) (m : gmap K V) d :
  0 < d -> msum (fun k v => g k v / d) m * d <= msum g m.
Proof.
  intros Hd. rewrite N.mul_comm, <- msum_mul. apply msum_le. intros k v _. rewrite N.mul_comm. now apply div_mul_le.
Qed.

Theorem C43_claims_covered w now fid f f1 :
  freachable w -> w_now w <= now -> fs_farms (w_c w) !! fid = Some f ->
  distribute now f (seed_total (w_c w) (fst fid)) = Some f1 ->
  msum (claimable (w_c w) fid (d_rps (f_dist f1))) (fs_farmers (w_c w)) <= d_unclaimed (f_dist f1).
Proof.
  intros Hw Hn Hf Hd. apply winv_reachable in Hw as ((H1 & _ & _ & H4 & _) & _).
  destruct (H1 fid f Hf) as (_ & _ & _ & _ & Ho & _).
  pose proof (owed_distribute now _ fid f _ f1 (H4 (fst fid)) Hd Ho) as Ho1.
  pose proof (msum_div (fun a r => mget (fr_seeds r) (fst fid) * (d_rps (f_dist f1) - get_rps (w_c w) a fid)) (fs_farmers (w_c w)) DENOM DENOM_pos) as Hm.
  pose proof DENOM_pos. unfold owed in Ho1. unfold claimable.
  match goal with |- ?x <= ?y => assert (x * DENOM <= y * DENOM) by lia end. now apply (N.mul_le_mono_pos_r _ _ DENOM).
Qed.
Print Assumptions C43_claims_covered.

(** hence the check behind ERR500 in claim_user_reward cannot fail *)
Theorem C43_claim_never_short w now a fid f f1 am :
  freachable w -> w_now w <= now -> fs_farms (w_c w) !! fid = Some f ->
  distribute now f (seed_total (w_c w) (fst fid)) = Some f1 ->
  reward_of (stake_of (w_c w) a (fst fid)) (d_rps (f_dist f1)) (get_rps (w_c w) a fid) = Some am ->
  am <= d_unclaimed (f_dist f1).
Proof.
  intros Hw Hn Hf Hd Hr. pose proof (C43_claims_covered w now fid f f1 Hw Hn Hf Hd) as Hc.
  apply reward_of_Some in Hr as (_ & -> & _). unfold stake_of.
  destruct (fs_farmers (w_c w) !! a) as [r|] eqn:Ha.
  - etransitivity; [|exact Hc].
    pose proof (msum_lookup_le (claimable (w_c w) fid (d_rps (f_dist f1))) (fs_farmers (w_c w)) a) as Hl.
    rewrite Ha in Hl. exact Hl.
  - rewrite N.mul_0_l, div_zero_l. lia.
Qed.
Print Assumptions C43_claim_never_short.
(* two farmers with different, partly claimed entitlements *)
Example C43_ex :
  let w := ex_world (ex_prefix ++ [EvCall (sec 305) "bob" (CClaimSeed "lp")]) in
  exists f f1, fs_farms (w_c w) !! ex_fid = Some f /\ distribute (sec 370) f (seed_total (w_c w) "lp") = Some f1 /\
    msum (claimable (w_c w) ex_fid (d_rps (f_dist f1))) (fs_farmers (w_c w)) = 1600 /\ d_unclaimed (f_dist f1) = 1601.
Proof. eexists _, _. split; [vm_compute; reflexivity|]. split; [vm_compute; reflexivity|]. vm_compute. auto. Qed.

(** ** C44: seed accounting *)
Theorem C44_seed_accounting w s :
  freachable w ->
  seed_total (w_c w) s = map_fold (fun a r acc => mget (fr_seeds r) s + acc) 0 (fs_farmers (w_c w)) /\
  seed_total (w_c w) s + inflight w s <= mget (w_hold w) s.
Proof.
  intros Hw. apply winv_reachable in Hw as ((_ & _ & _ & H4 & _) & Hh & _). split.
  - exact (H4 s).
  - specialize (Hh s). unfold owes in Hh. lia.
Qed.
Print Assumptions C44_seed_accounting.
Example C44_ex : seed_total (w_c (ex_world ex_events)) "lp" = 900 /\ inflight (ex_world ex_events) "lp" = 100 /\
  mget (w_hold (ex_world ex_events)) "lp" = 1005.
Proof. vm_compute. auto. Qed.

(** ** C45: solvency of rewards (and seeds, when they are the same token) *)
Theorem C45_rewards_solvent w t :
  freachable w ->
  seed_total (w_c w) t                                   (* stakes, if t is also a seed *)
  + rewards_sum (w_c w) t                                (* claimed, not withdrawn *)
  + farms_owe (w_c w) t                                  (* undistributed, unclaimed, beneficiary *)
  + inflight w t                                         (* withdrawals not executed, or failed and not restored *)
  <= mget (w_hold w) t.
Proof. intros Hw. apply winv_reachable in Hw as (_ & Hh & _). exact (Hh t). Qed.
Print Assumptions C45_rewards_solvent.

(** a withdrawal never fails for lack of tokens of the contract *)
Theorem C45_transfer_never_short w id p :
  freachable w -> w_pend w !! id = Some p -> pend_res p = None -> is_Some (fstep w (EvRemote id true)).
Proof.
  intros Hw Hid Hp. apply winv_reachable in Hw as (_ & Hh & _). cbn [fstep]. rewrite Hid. cbn [mbind option_bind].
  rewrite Hp. specialize (Hh (pend_asset p)).
  pose proof (msum_lookup_le (fun _ p0 => pend_owes (pend_asset p) p0) (w_pend w) id) as Hl. rewrite Hid in Hl. cbn [contrib] in Hl.
  unfold pend_owes in Hl at 1. rewrite Hp, String.eqb_refl in Hl. fold (inflight w (pend_asset p)) in Hl.
  rewrite csub_intro by lia. cbn. eauto.
Qed.
Print Assumptions C45_transfer_never_short.
Example C45_ex : let w := ex_world ex_events in
  (rewards_sum (w_c w) "rew", farms_owe (w_c w) "rew", inflight w "rew", mget (w_hold w) "rew") = (1999, 2501, 1000, 5500).
Proof. vm_compute. reflexivity. Qed.

(** ** C46: emission is bounded by the schedule and by the deposits *)
Theorem C46_emission_bounded owner es w fid f :
  frun (fw_new owner) es w -> known_farm (w_c w) fid = Some f ->
  let released := d_unclaimed (f_dist f) + f_claimed f in
  released <= d_rr (f_dist f) * t_rps (f_terms f) /\
  d_rr (f_dist f) <= sessions (w_now w) (f_terms f) /\
  released <= sessions (w_now w) (f_terms f) * t_rps (f_terms f) /\
  released <= deposited fid es.
Proof.
  intros Hr Hf. cbn zeta.
  destruct (C42_farm_conservation _ _ _ _ _ Hr Hf) as (Hd & _).
  assert (Hw : freachable w) by (exists owner, es; done).
  apply winv_reachable in Hw as ((H1 & _ & H3 & _) & _). unfold known_farm in Hf.
  assert (Hwf : farm_wf (w_now w) f).
  { destruct (fs_farms (w_c w) !! fid) as [g|] eqn:E.
    - injection Hf as <-. now destruct (H1 _ _ E).
    - now destruct (H3 _ _ Hf). }
  destruct Hwf as (_ & _ & E3 & E4 & _). split_and!; try lia.
  etransitivity; [exact E3|]. now apply N.mul_le_mono_r.
Qed.
Print Assumptions C46_emission_bounded.
Example C46_ex : exists f, known_farm (w_c (ex_world ex_events)) ex_fid = Some f /\
  d_unclaimed (f_dist f) + f_claimed f = 3000 /\ sessions (w_now (ex_world ex_events)) (f_terms f) = 3.
Proof. eexists. split; [vm_compute; reflexivity|]. vm_compute. auto. Qed.

(** ** C47: rewards are pro rata *)
(** What can happen to one farm while the total stake stays [S]: distributions, claims by anybody
    with any stake and rps, and reward deposits. *)
Inductive fop := ODistribute (now : N) | OClaim (now user_rps user_seeds : N) | ODeposit (now amount : N).
Definition fop_step (S : N) (f : Farm) (o : fop) : option Farm :=
  match o with
  | ODistribute now => distribute now f S
  | OClaim now ru s => '(f', _rps, _am) ← claim_user_reward now f ru s S; Some f'
  | ODeposit now am => of ← farm_add_reward now f am; of
  end.
Fixpoint fop_run (S : N) (f : Farm) (os : list fop) : option Farm :=
  match os with [] => Some f | o :: os' => f' ← fop_step S f o; fop_run S f' os' end.
(** total reward released so far *)
Definition released (f : Farm) : N := d_unclaimed (f_dist f) + f_claimed f.

Lemma fop_step_rps S f o f' : 0 < S -> fop_step S f o = Some f' ->
  exists q, d_rps (f_dist f') = d_rps (f_dist f) + q /\ released f <= released f' /\
    q * S <= (released f' - released f) * DENOM /\ (released f' - released f) * DENOM < (q + 1) * S.
Proof.
  intros HS H.
  assert (Hdist : forall now f1, distribute now f S = Some f1 ->
    exists q, d_rps (f_dist f1) = d_rps (f_dist f) + q /\ released f <= released f1 /\
    q * S <= (released f1 - released f) * DENOM /\ (released f1 - released f) * DENOM < (q + 1) * S).
  { intros now f1 Hd. apply distribute_Some in Hd as (_ & _ & _ & added & _ & _ & _ & _ & _ & [(B1 & B2 & _ & B3)|(B1 & _)]); [|lia].
    assert (Hrel : released f1 = released f + added) by (unfold released; lia). rewrite Hrel.
    replace (released f + added - released f) with added by lia.
    destruct B3 as [(-> & B3)|(_ & B3)].
    - exists 0. split_and!; lia.
    - exists (added * DENOM / S). split_and!; [done|lia|now apply div_mul_le|now apply lt_div_succ]. }
  destruct o as [now|now ru s|now am]; cbn [fop_step] in H.
  - eauto.
  - destruct (claim_user_reward now f ru s S) as [[[f2 ?] ?]|] eqn:Hc; [|discriminate]. cbn [mbind option_bind] in H. injection H as <-.
    apply claim_user_reward_Some in Hc as (f1 & Hd & _ & _ & Hle & _ & ->).
    destruct (Hdist _ _ Hd) as (q & Hq). exists q. unfold released in *. cbn [f_dist d_rps d_unclaimed f_claimed].
    replace (d_unclaimed (f_dist f1) - n0 + (f_claimed f1 + n0)) with (d_unclaimed (f_dist f1) + f_claimed f1) by lia. exact Hq.
  - destruct (farm_add_reward now f am) as [[f2|]|] eqn:Hc; try discriminate. cbn [mbind option_bind] in H. injection H as <-.
    apply farm_add_reward_Some in Hc as (_ & _ & _ & _ & E1 & E2 & _). exists 0. unfold released. rewrite E1, E2.
    cbn [d_set_undist d_rps d_unclaimed]. split_and!; lia.
Qed.

Lemma fop_run_rps S os : 0 < S -> forall f f', fop_run S f os = Some f' ->
  exists q, d_rps (f_dist f') = d_rps (f_dist f) + q /\ released f <= released f' /\
    q * S <= (released f' - released f) * DENOM /\
    (released f' - released f) * DENOM <= (q + N.of_nat (length os)) * S.
Proof.
  intros HS. induction os as [|o os IH]; intros f f' H; cbn [fop_run] in H.
  - injection H as <-. exists 0. split_and!; cbn; lia.
  - destruct (fop_step S f o) as [f1|] eqn:H1; [|discriminate]. cbn [mbind option_bind] in H.
    destruct (fop_step_rps _ _ _ _ HS H1) as (q1 & A1 & A2 & A3 & A4). destruct (IH _ _ H) as (q2 & B1 & B2 & B3 & B4).
    exists (q1 + q2). cbn [length]. rewrite Nat2N.inj_succ.
    replace (released f' - released f) with ((released f1 - released f) + (released f' - released f1)) by lia.
    rewrite !N.mul_add_distr_r in *. rewrite N.mul_succ_l. split_and!; lia.
Qed.

(** A farmer with stake [s] whose rps was current at [f] (just staked or just claimed) and who
    claims at [f'] gets [am]; [R] was released in between. *)
Theorem C47_pro_rata S s f os f' f'' rps am :
  0 < S -> fop_run S f os = Some f' ->
  forall now, claim_user_reward now f' (d_rps (f_dist f)) s S = Some (f'', rps, am) ->
  let R := released f'' - released f in
  am * S <= s * R /\
  s * R * DENOM < (am + 1) * S * DENOM + (N.of_nat (length os) + 1) * s * S.
Proof.
  intros HS Hrun now Hc. cbn zeta.
  apply claim_user_reward_Some in Hc as (f1 & Hd & Hru & Ham & Hle & _ & ->).
  assert (Hrun1 : fop_run S f (os ++ [ODistribute now]) = Some f1).
  { revert f Hrun Hru Ham. clear -Hd. induction os as [|o os IH]; intros f Hrun Hru Ham; cbn [fop_run app] in *.
    - injection Hrun as ->. cbn [fop_step]. rewrite Hd. done.
    - destruct (fop_step S f o) as [f2|] eqn:E; [|discriminate]. cbn [mbind option_bind] in *.
      clear Hru Ham. revert Hrun. clear E. revert f2. clear -Hd.
      induction os as [|o os IH]; intros f2 Hrun; cbn [fop_run app] in *.
      + injection Hrun as ->. cbn [fop_step]. rewrite Hd. done.
      + destruct (fop_step S f2 o) as [f3|]; [|discriminate]. cbn [mbind option_bind] in *. eauto. }
  destruct (fop_run_rps S _ HS _ _ Hrun1) as (q & Hq & Hrel & H1 & H2).
  rewrite app_length in H2. cbn [length] in H2. rewrite Nat2N.inj_add in H2. change (N.of_nat 1) with 1 in H2.
  set (k := N.of_nat (length os) + 1) in *. clearbody k.
  assert (Hreq : released f1 = d_unclaimed (f_dist f1) - am + (f_claimed f1 + am)) by (unfold released; clear Ham; lia).
  unfold released at 1 3. cbn [f_dist d_unclaimed f_claimed]. rewrite <- Hreq.
  set (R := released f1 - released f) in *. clearbody R. clear Hreq Hrun Hrun1.
  replace (d_rps (f_dist f1) - d_rps (f_dist f)) with q in Ham by lia.
  pose proof DENOM_pos as HD.
  assert (Ha1 : am * DENOM <= s * q) by (rewrite Ham; now apply div_mul_le).
  assert (Ha2 : s * q < (am + 1) * DENOM) by (rewrite Ham; now apply lt_div_succ).
  clear Ham Hle Hd Hq Hru Hrel. set (D := DENOM) in *. clearbody D. split.
  - apply (N.mul_le_mono_pos_r _ _ D HD).
    apply N.le_trans with (s * q * S).
    + replace (am * S * D) with (am * D * S) by lia. now apply N.mul_le_mono_r.
    + replace (s * q * S) with (s * (q * S)) by lia. replace (s * R * D) with (s * (R * D)) by lia. now apply N.mul_le_mono_l.
  - apply N.le_lt_trans with (s * q * S + k * s * S).
    + replace (s * R * D) with (s * (R * D)) by lia. replace (s * q * S + k * s * S) with (s * ((q + k) * S)) by lia.
      now apply N.mul_le_mono_l.
    + apply N.add_lt_mono_r. replace ((am + 1) * S * D) with ((am + 1) * D * S) by lia. now apply N.mul_lt_mono_pos_r.
Qed.
Print Assumptions C47_pro_rata.

(** claiming in between never pays more than claiming once *)
Theorem C47_splitting_never_pays s r0 r1 r2 a b x :
  reward_of s r1 r0 = Some a -> reward_of s r2 r1 = Some b -> reward_of s r2 r0 = Some x -> a + b <= x.
Proof.
  intros Ha Hb Hx. apply reward_of_Some in Ha as (L1 & -> & _). apply reward_of_Some in Hb as (L2 & -> & _).
  apply reward_of_Some in Hx as (_ & -> & _).
  replace (s * (r2 - r0)) with (s * (r1 - r0) + s * (r2 - r1)) by nia. apply div_superadd, DENOM_pos.
Qed.
Print Assumptions C47_splitting_never_pays.
Definition ex_farm : Farm := f_set_dist (f_set_reward (f_set_status (farm_new (mkTerms "lp" "rew" 100 1000 60)) Running) 5500) (mkDist 5500 0 0 0).
Example C47_ex : exists f' f'' rps, fop_run 700 ex_farm [ODistribute (sec 160); OClaim (sec 225) 0 400; ODeposit (sec 230) 77] = Some f' /\
  claim_user_reward (sec 290) f' (d_rps (f_dist ex_farm)) 300 700 = Some (f'', rps, 1285) /\ released f'' - released ex_farm = 3000.
Proof. eexists _, _, _. split; [vm_compute; reflexivity|]. split; [vm_compute; reflexivity|]. vm_compute. reflexivity. Qed.

(** ** C48: a stake can be withdrawn *)
(** false in general: entries of [user_rps] survive storage_unregister, while the counter restarts *)
Definition ex_locked : list fevent :=
  [EvCall (sec 100) "owner" (CCreateFarm (10 ^ 24) 200 ex_terms (Some 10));
   EvCall (sec 100) "alice" (CStorageDeposit "alice" (10 ^ 24) false);
   EvCall (sec 101) "alice" (CClaimSeed "lp");
   EvCall (sec 102) "alice" (CStorageUnregister 1);
   EvCall (sec 103) "alice" (CStorageDeposit "alice" (10 ^ 24) false);
   EvToken (sec 110) "lp" "alice" 300 None].
Theorem C48_stake_withdrawable_refuted :
  ~ (forall w a s amount, freachable w -> fs_running (w_c w) = true ->
       0 < amount -> amount <= stake_of (w_c w) a s ->
       is_Some (fstep w (EvCall (w_now w) a (CWithdrawSeed 1 s amount)))).
Proof.
  intros H. specialize (H (ex_world ex_locked) "alice"%string "lp"%string 300).
  assert (Hr : freachable (ex_world ex_locked)).
  { apply ex_reachable, is_Some_bool. vm_compute. reflexivity. }
  specialize (H Hr). destruct H as [w' Hw'].
  - vm_compute. reflexivity.
  - vm_compute. reflexivity.
  - vm_compute. discriminate.
  - assert (E : fstep (ex_world ex_locked) (EvCall (w_now (ex_world ex_locked)) "alice" (CWithdrawSeed 1 "lp" 300)) = None)
      by (vm_compute; reflexivity). congruence.
Qed.
Print Assumptions C48_stake_withdrawable_refuted.
(* everything but one unit can be withdrawn in the same state *)
Example C48_locked_rest : match fstep (ex_world ex_locked) (EvCall (sec 111) "alice" (CWithdrawSeed 1 "lp" 299)) with
  Some w => stake_of (w_c w) "alice" "lp" = 1 | None => False end.
Proof. vm_compute. reflexivity. Qed.

(** What holds: if the claim that precedes it goes through, any part of the stake can be withdrawn,
    and all of it if the rps counter of the farmer covers its entries for the farms of the seed. *)
Definition entries_for (c : FState) (a : AccountId) (l : list FarmId) : N :=
  N.of_nat (length (filter (fun fid => is_Some (fs_rps c !! (a, fid))) l)).

Lemma remove_rps_all_defined a l : forall c r,
  fs_farmers c !! a = Some r -> entries_for c a l <= fr_count r -> NoDup l -> is_Some (remove_rps_all c a l).
Proof.
  induction l as [|fid l IH]; intros c r Ha He Hnd; cbn [remove_rps_all]; [eauto|].
  apply NoDup_cons in Hnd as [Hnin Hnd]. unfold remove_rps. rewrite Ha. cbn [mbind option_bind].
  unfold entries_for in He. rewrite filter_cons in He.
  destruct (fs_rps c !! (a, fid)) as [v|] eqn:Ev.
  - rewrite decide_True in He by eauto. cbn [length] in He. rewrite Nat2N.inj_succ in He.
    rewrite csub_intro by lia. cbn [mbind option_bind].
    eapply (IH _ (fr_set_count r (fr_count r - 1))); [cbn; apply lookup_insert| |done].
    cbn [fr_set_count fr_count]. unfold entries_for. cbn [fs_set_rps fs_rps].
    assert (Hfil : length (filter (fun fid0 => is_Some (delete (a, fid) (fs_rps c) !! (a, fid0))) l)
              = length (filter (fun fid0 => is_Some (fs_rps c !! (a, fid0))) l)).
    { f_equal. clear -Hnin. induction l as [|x l IHl]; [done|]. apply not_elem_of_cons in Hnin as [Hx Hl].
      rewrite !filter_cons. rewrite lookup_delete_ne by congruence. case_decide; now rewrite IHl. }
    rewrite Hfil. lia.
  - rewrite decide_False in He by (intros [? ?]; congruence). cbn [mbind option_bind]. eapply IH; eauto.
Qed.

Lemma remove_rps_all_stake a l b s : forall c c', remove_rps_all c a l = Some c' -> stake_of c' b s = stake_of c b s.
Proof.
  induction l as [|fid l IH]; intros c2 c' Hc'; cbn [remove_rps_all] in Hc'; [now injection Hc' as <-|].
  destruct (remove_rps c2 a fid) as [c3|] eqn:E; [|discriminate]. cbn [mbind option_bind] in Hc'.
  rewrite (IH _ _ Hc'). eapply remove_rps_stake; eauto.
Qed.

Theorem C48_withdrawable_after_claim_partial w now a s amount c1 r1 :
  freachable w -> w_now w <= now -> fs_running (w_c w) = true ->
  claim_by_seed now (w_c w) a s = Some c1 -> fs_farmers c1 !! a = Some r1 ->
  0 < amount -> amount <= stake_of (w_c w) a s ->
  (amount = stake_of (w_c w) a s ->
     forall sd, fs_seeds c1 !! s = Some sd -> entries_for c1 a (elements (s_farms sd)) <= fr_count r1) ->
  exists c', withdraw_seed now (w_c w) a 1 s amount = Some c' /\
    stake_of c' a s = stake_of (w_c w) a s - amount.
Proof.
  intros Hw Hn Hrun Hcl Hr1 Hpos Hle Hcnt.
  apply winv_reachable in Hw as (Hi & _). apply (finv_mono _ now) in Hi; [|done].
  destruct (finv_claim_by_seed _ _ _ _ _ Hi Hcl) as (Hi1 & _ & Hfr & _ & _).
  destruct Hfr as (_ & Es & _ & _ & _ & _ & _ & _ & Hfa & _).
  destruct (fs_farmers (w_c w) !! a) as [r|] eqn:Ha; [|unfold stake_of in Hle; rewrite Ha in Hle; lia].
  destruct (Hfa r eq_refl) as (r1' & Hr1' & Eseeds & _). replace r1' with r1 in * by congruence. clear r1' Hr1'.
  rewrite (stake_of_Some _ _ _ _ Ha) in *.
  assert (Hp : exists p, fr_seeds r1 !! s = Some p /\ mget (fr_seeds r) s = p).
  { rewrite <- Eseeds in *. unfold mget in *. destruct (fr_seeds r1 !! s) as [p|]; [|cbn in *; lia]. eauto. }
  destruct Hp as (p & Hp & Hpe).
  assert (Htot : exists sd, fs_seeds c1 !! s = Some sd /\ p <= s_amount sd).
  { destruct Hi1 as (_ & _ & _ & H4 & _). specialize (H4 s). unfold seed_total, stakes_sum in H4.
    pose proof (msum_lookup_le (fun _ r => mget (fr_seeds r) s) (fs_farmers c1) a) as Hl. rewrite Hr1 in Hl. cbn [contrib] in Hl.
    unfold mget in Hl at 1. rewrite Hp in Hl. cbn [default Datatypes.id] in Hl.
    destruct (fs_seeds c1 !! s) as [sd|]; [|lia]. exists sd. split; [done|]. lia. }
  destruct Htot as (sd & Hsd & Hamt). rewrite Hpe in *.
  unfold withdraw_seed. rewrite Hrun. cbn [N.eqb Pos.eqb ensure mbind option_bind]. unfold seed_withdraw.
  rewrite Hcl. cbn [mbind option_bind]. rewrite Hsd. cbn [mbind option_bind]. rewrite Hr1. cbn [mbind option_bind].
  unfold fr_sub_seed. rewrite Hp. cbn [mbind option_bind].
  destruct (N.leb_spec amount p) as [_|]; [|lia]. cbn [ensure mbind option_bind].
  rewrite csub_intro by lia. cbn [mbind option_bind].
  set (r' := fr_set_seeds r1 _). set (c2 := fs_set_seeds _ _).
  assert (Hst2 : stake_of c2 a s = p - amount).
  { unfold stake_of. subst c2. cbn. rewrite lookup_insert. subst r'. cbn [fr_set_seeds fr_seeds].
    destruct (N.ltb_spec 0 (p - amount)); [now rewrite mget_insert|]. rewrite mget_delete. lia. }
  destruct (N.eqb_spec (p - amount) 0) as [Hz|Hz].
  - assert (Hall : is_Some (remove_rps_all c2 a (elements (s_farms sd)))).
    { eapply remove_rps_all_defined; [subst c2; cbn; apply lookup_insert| |apply NoDup_elements].
      subst r'. cbn [fr_set_seeds fr_count]. change (entries_for c2 a (elements (s_farms sd))) with (entries_for c1 a (elements (s_farms sd))).
      apply Hcnt; [lia|done]. }
    destruct Hall as [c' Hc']. exists c'. split; [done|]. rewrite <- Hst2.
    eapply remove_rps_all_stake; eauto.
  - exists c2. split; [done|]. exact Hst2.
Qed.
Print Assumptions C48_withdrawable_after_claim_partial.
Example C48_ex :
  let w := ex_world ex_events in
  match claim_by_seed (sec 400) (w_c w) "alice" "lp" with
  | Some c1 => match fs_farmers c1 !! "alice"%string, fs_seeds c1 !! "lp"%string with
               | Some r1, Some sd => entries_for c1 "alice" (elements (s_farms sd)) = 1 /\ fr_count r1 = 1 | _, _ => False end
  | None => False end.
Proof. vm_compute. auto. Qed.

(** ** C49: failed withdrawals are restored *)
Lemma w_tick_intro w now : w_now w <= now -> now < W64 -> w_tick w now = Some tt.
Proof. intros H1 H2. unfold w_tick. apply ensure_intro. apply andb_true_intro. split; [now apply N.leb_le|now apply N.ltb_lt]. Qed.

(** a failed reward withdrawal of a farmer that is still registered is always restored, exactly *)
Theorem C49_reward_restored_partial w now id t a m :
  w_now w <= now -> now < W64 -> w_pend w !! id = Some (PReward t a m (Some false)) ->
  is_Some (fs_farmers (w_c w) !! a) -> reward_balance (w_c w) a t + m < W128 ->
  exists w', fstep w (EvCallback now id) = Some w' /\
    reward_balance (w_c w') a t = reward_balance (w_c w) a t + m /\
    (forall b u, (b, u) <> (a, t) -> reward_balance (w_c w') b u = reward_balance (w_c w) b u) /\
    (forall b s, stake_of (w_c w') b s = stake_of (w_c w) b s) /\
    (forall s, seed_total (w_c w') s = seed_total (w_c w) s) /\
    (forall fid, known_farm (w_c w') fid = known_farm (w_c w) fid).
Proof.
  intros H1 H2 Hid [r Hr] Hov. cbn [fstep]. rewrite w_tick_intro by done. cbn [mbind option_bind].
  rewrite Hid. cbn [mbind option_bind pend_res]. eexists. split; [reflexivity|]. cbn [w_c callback_restore].
  unfold restore_reward. rewrite Hr. cbn [mbind option_bind]. unfold fr_add_reward.
  unfold reward_balance in Hov. rewrite Hr in Hov. rewrite cadd_intro by done. cbn [mbind option_bind default Datatypes.id].
  unfold reward_balance. cbn [fs_set_farmers fs_farmers]. split_and!.
  - rewrite lookup_insert, Hr. cbn [fr_set_rewards fr_rewards]. apply mget_insert.
  - intros b u Hne. destruct (decide (a = b)) as [<-|Hab].
    + rewrite lookup_insert, Hr. cbn [fr_set_rewards fr_rewards]. apply mget_insert_ne. congruence.
    + now rewrite lookup_insert_ne.
  - intros b s. eapply stake_of_insert; [reflexivity|]. now rewrite (stake_of_Some _ _ _ _ Hr).
  - done.
  - done.
Qed.
Print Assumptions C49_reward_restored_partial.

(** a failed seed withdrawal is restored exactly whenever the callback does not panic *)
Theorem C49_seed_restored_partial w now id s a m c' :
  freachable w -> w_now w <= now -> now < W64 -> w_pend w !! id = Some (PSeed s a m (Some false)) ->
  seed_deposit now (w_c w) s a m = Some c' ->
  exists w', fstep w (EvCallback now id) = Some w' /\
    stake_of (w_c w') a s = stake_of (w_c w) a s + m /\
    seed_total (w_c w') s = seed_total (w_c w) s + m /\
    (forall b u, (b, u) <> (a, s) -> stake_of (w_c w') b u = stake_of (w_c w) b u) /\
    (forall u, u <> s -> seed_total (w_c w') u = seed_total (w_c w) u).
Proof.
  intros Hw H1 H2 Hid Hd. cbn [fstep]. rewrite w_tick_intro by done. cbn [mbind option_bind].
  rewrite Hid. cbn [mbind option_bind pend_res]. eexists. split; [reflexivity|]. cbn [w_c callback_restore].
  rewrite Hd. cbn [default Datatypes.id].
  apply winv_reachable in Hw as (Hi & _). apply (finv_mono _ now) in Hi; [|done].
  unfold seed_deposit in Hd.
  destruct (claim_by_seed now (w_c w) a s) as [c1|] eqn:Hc; [|discriminate]. cbn [mbind option_bind] in Hd.
  destruct (finv_claim_by_seed _ _ _ _ _ Hi Hc) as (_ & _ & Hfr & (r & Hr) & _).
  destruct (fs_seeds c1 !! s) as [sd|] eqn:Hsd; [|discriminate]. cbn [mbind option_bind] in Hd.
  destruct (cadd _ _ _) as [v|] eqn:Hv; [|discriminate]. cbn [mbind option_bind] in Hd.
  apply cadd_Some in Hv as (-> & _).
  cbn [fs_set_seeds fs_farmers] in Hd. rewrite Hr in Hd. cbn [mbind option_bind] in Hd.
  destruct (fr_add_seed r s m) as [r'|] eqn:Hadd; [|discriminate]. cbn [mbind option_bind] in Hd.
  injection Hd as <-.
  destruct Hfr as (_ & Es & _ & _ & _ & _ & Hoth & _ & Hown & _).
  assert (Hr0 : exists r0, fs_farmers (w_c w) !! a = Some r0 /\ fr_seeds r = fr_seeds r0).
  { destruct (fs_farmers (w_c w) !! a) as [r0|] eqn:E.
    - destruct (Hown r0 eq_refl) as (r1 & Hr1 & E1 & _). exists r0. split; [done|]. congruence.
    - unfold claim_by_seed in Hc. rewrite E in Hc. discriminate. }
  destruct Hr0 as (r0 & Hr0 & Er0).
  assert (Hadd' : (forall s', s' <> s -> mget (fr_seeds r') s' = mget (fr_seeds r) s') /\
     mget (fr_seeds r') s = mget (fr_seeds r) s + m).
  { unfold fr_add_seed in Hadd. destruct (N.ltb_spec 0 m); inv; subst.
    - cbn. split.
      + intros s' Hne. apply mget_insert_ne. congruence.
      + rewrite mget_insert. lia.
    - split; [done|]. lia. }
  destruct Hadd' as (A1 & A2).
  unfold stake_of, seed_total. cbn [fs_set_farmers fs_set_seeds fs_farmers fs_seeds]. split_and!.
  - rewrite lookup_insert, Hr0. congruence.
  - rewrite lookup_insert. rewrite <- Es, Hsd. done.
  - intros b u Hne. destruct (decide (a = b)) as [<-|Hab].
    + rewrite lookup_insert, Hr0, A1 by congruence. congruence.
    + rewrite lookup_insert_ne by done. now rewrite Hoth by congruence.
  - intros u Hu. rewrite lookup_insert_ne by done. now rewrite Es.
Qed.
Print Assumptions C49_seed_restored_partial.

(** but a farmer can be unregistered between the request and the callback; the callback then panics
    and the tokens stay in the contract without an owner *)
Definition ex_lost : list fevent :=
  [EvCall (sec 100) "owner" (CCreateFarm (10 ^ 24) 200 ex_terms (Some 10));
   EvCall (sec 100) "alice" (CStorageDeposit "alice" (10 ^ 24) false);
   EvToken (sec 110) "lp" "alice" 300 None;
   EvCall (sec 120) "alice" (CWithdrawSeed 1 "lp" 300);
   EvCall (sec 120) "alice" (CStorageUnregister 1);
   EvRemote 0 false].
Theorem C49_restored_in_all_interleavings_refuted :
  ~ (forall w w' now id s a m, freachable w -> w_pend w !! id = Some (PSeed s a m (Some false)) ->
       fstep w (EvCallback now id) = Some w' ->
       stake_of (w_c w') a s = stake_of (w_c w) a s + m).
Proof.
  intros H.
  assert (Hr : freachable (ex_world ex_lost)).
  { apply ex_reachable, is_Some_bool. vm_compute. reflexivity. }
  set (w := ex_world ex_lost) in *.
  destruct (fstep w (EvCallback (sec 121) 0)) as [w'|] eqn:E; [|vm_compute in E; discriminate].
  specialize (H w w' (sec 121) 0%nat "lp"%string "alice"%string 300 Hr).
  assert (E2 : match fstep w (EvCallback (sec 121) 0) with Some x => stake_of (w_c x) "alice" "lp" | None => 7 end = 0)
    by (vm_compute; reflexivity). rewrite E in E2.
  rewrite E2 in H. assert (E3 : stake_of (w_c w) "alice" "lp" = 0) by (vm_compute; reflexivity). rewrite E3 in H.
  assert (X : 0 = 0 + 300); [|discriminate X]. apply H; [vm_compute; reflexivity|exact E].
Qed.
Print Assumptions C49_restored_in_all_interleavings_refuted.
Example C49_ex : let w := ex_world (ex_events ++ [EvRemote 0 false; EvRemote 1 false]) in
  w_pend w !! 0%nat = Some (PSeed "lp" "alice" 100 (Some false)) /\
  w_pend w !! 1%nat = Some (PReward "rew" "bob" 1000 (Some false)) /\
  match frun_exec w [EvCallback (sec 330) 0; EvCallback (sec 331) 1] with
  | Some w' => (stake_of (w_c w') "alice" "lp", seed_total (w_c w') "lp", reward_balance (w_c w') "bob" "rew") = (300, 1000, 1400)
  | None => False end.
Proof. vm_compute. auto. Qed.

(** ** C50: lifecycle *)
(** over any run a farm only moves forward, keeps its terms (the start is set once), its id keeps
    denoting the same farm, and what is paid out or released only grows *)
Theorem C50_lifecycle owner es0 w es w' fid f :
  frun (fw_new owner) es0 w -> frun w es w' -> known_farm (w_c w) fid = Some f ->
  exists f', known_farm (w_c w') fid = Some f' /\
    (status_rank (f_status f) <= status_rank (f_status f'))%nat /\
    t_seed (f_terms f') = t_seed (f_terms f) /\ t_reward (f_terms f') = t_reward (f_terms f) /\
    t_rps (f_terms f') = t_rps (f_terms f) /\ t_interval (f_terms f') = t_interval (f_terms f) /\
    (t_start (f_terms f) <> 0 \/ f_status f <> Created -> t_start (f_terms f') = t_start (f_terms f)) /\
    d_rr (f_dist f) <= d_rr (f_dist f') /\ f_claimed f <= f_claimed f' /\ f_benef f <= f_benef f' /\
    (f_status f = Ended \/ f_status f = Cleared -> deposited fid es = 0).
Proof.
  intros H0 Hr Hf. assert (Hi : winv w) by (eapply winv_run; [exact H0|apply winv_new]).
  destruct (evolve_run _ _ _ Hr Hi) as (H & _). destruct (H fid f Hf) as (f' & Hf' & _ & Hle). exists f'. auto.
Qed.
Print Assumptions C50_lifecycle.

(** an ended or cleared farm accepts no reward *)
Theorem C50_ended_accepts_no_reward w now token sender amount fid f :
  freachable w -> known_farm (w_c w) fid = Some f -> f_status f = Ended \/ f_status f = Cleared ->
  fstep w (EvToken now token sender amount (Some fid)) = None.
Proof.
  intros Hw Hf Hst. cbn [fstep]. destruct (w_tick w now); [|done]. cbn [mbind option_bind].
  unfold ft_on_transfer. destruct (fs_running (w_c w)); [|done]. cbn [ensure mbind option_bind].
  unfold known_farm in Hf. destruct (fs_farms (w_c w) !! fid) as [g|]; [|done]. injection Hf as ->. cbn [mbind option_bind].
  destruct (ensure _); [|done]. cbn [mbind option_bind]. unfold farm_add_reward.
  destruct Hst as [-> | ->]; done.
Qed.
Print Assumptions C50_ended_accepts_no_reward.

(** a created farm gets an id never used before *)
Theorem C50_ids_fresh w now a att needed t m w' :
  freachable w -> fstep w (EvCall now a (CCreateFarm att needed t m)) = Some w' ->
  exists fid, fst fid = t_seed t /\ known_farm (w_c w) fid = None /\ known_farm (w_c w') fid = Some (farm_new t) /\
    (forall b, fs_rps (w_c w) !! (b, fid) = None) /\
    forall x, x <> fid -> known_farm (w_c w') x = known_farm (w_c w) x.
Proof.
  intros Hw H. apply winv_reachable in Hw as (Hi & _). cbn [fstep] in H.
  destruct (w_tick w now); [|discriminate]. cbn [mbind option_bind fcall_exec] in H.
  destruct (ensure _); [|discriminate]. cbn [mbind option_bind] in H.
  unfold create_simple_farm in H. destruct (assert_owner _ _); [|discriminate]. cbn [mbind option_bind] in H.
  destruct (internal_add_farm _ _ _) as [c'|] eqn:Ha; [|discriminate]. cbn [mbind option_bind] in H.
  destruct (ensure _); [|discriminate]. cbn [mbind option_bind] in H. injection H as <-. cbn [w_c].
  set (sd := default (mkSeed ∅ 0 0 (default MIN_SEED_DEPOSIT m)) (fs_seeds (w_c w) !! t_seed t)).
  exists (t_seed t, s_next sd). split; [done|].
  unfold internal_add_farm in Ha. fold sd in Ha. destruct (cadd _ _ _) as [n|]; [|discriminate]. cbn [mbind option_bind] in Ha.
  injection Ha as <-. destruct Hi as (H1 & H2 & H3 & _ & H5).
  assert (Hf : fs_farms (w_c w) !! (t_seed t, s_next sd) = None).
  { destruct (fs_farms (w_c w) !! (t_seed t, s_next sd)) as [f|] eqn:E; [|done]. exfalso.
    destruct (H1 _ _ E) as (_ & _ & _ & (sd0 & Hs0 & Hin) & _). destruct (H2 _ _ _ Hs0 Hin) as (_ & Hlt & _).
    cbn [fst snd] in *. subst sd. rewrite Hs0 in Hlt. cbn in Hlt. lia. }
  assert (Ho : fs_outdated (w_c w) !! (t_seed t, s_next sd) = None).
  { destruct (fs_outdated (w_c w) !! (t_seed t, s_next sd)) as [f|] eqn:E; [|done]. exfalso.
    destruct (H3 _ _ E) as (_ & _ & _ & sd0 & Hs0 & Hlt).
    cbn [fst snd] in *. subst sd. rewrite Hs0 in Hlt. cbn in Hlt. lia. }
  unfold known_farm. cbn [fs_set_farms fs_set_seeds fs_farms fs_outdated]. split_and!.
  - now rewrite Hf.
  - now rewrite lookup_insert.
  - intros b. destruct (fs_rps (w_c w) !! (b, (t_seed t, s_next sd))) as [v|] eqn:E; [|done]. exfalso.
    destruct (H5 _ _ _ E) as (sd0 & Hs0 & Hlt). cbn [fst snd] in *. subst sd. rewrite Hs0 in Hlt. cbn in Hlt. lia.
  - intros x Hx. rewrite lookup_insert_ne; congruence.
Qed.
Print Assumptions C50_ids_fresh.
Definition ex_finished : list fevent :=
  ex_events ++ [EvCall (sec 600) "alice" (CClaimFarm ex_fid); EvCall (sec 610) "owner" (CForceClean ex_fid);
                EvCall (sec 620) "owner" (CCreateFarm (10 ^ 24) 200 ex_terms None)].
Example C50_ex : let c := w_c (ex_world ex_finished) in
  match known_farm c ex_fid, known_farm c ("lp"%string, 1) with
  | Some f, Some f1 => (f_status f, f_status f1, f_benef f) = (Cleared, Created, 1946) | _, _ => False end
  /\ fs_farms c !! ex_fid = None.
Proof. vm_compute. auto. Qed.

(** ** C51: the displayed reward is what a claim credits *)
Lemma view_eq_claim now f ru s S f2 rps' am :
  claim_user_reward now f ru s S = Some (f2, rps', am) -> (S = 0 -> s = 0) ->
  view_farmer_unclaimed_reward now f ru s S = Some am.
Proof.
  unfold claim_user_reward, view_farmer_unclaimed_reward. intros H HS.
  destruct (distribute now f S) as [f1|] eqn:Hd; [|discriminate]. cbn [mbind option_bind] in H.
  destruct (reward_of s (d_rps (f_dist f1)) ru) as [q|] eqn:Hq; [|discriminate]. cbn [mbind option_bind] in H.
  assert (Eq : q = am) by (inv; congruence). subst q. clear H.
  assert (Hz : s = 0 -> am = 0). { intros ->. apply reward_of_Some in Hq as (_ & -> & _). now rewrite N.mul_0_l, div_zero_l. }
  destruct (N.eqb_spec S 0) as [E|HS0]; [rewrite Hz; auto|].
  destruct (N.eqb_spec s 0) as [E|Hs0]; [rewrite Hz; auto|].
  unfold distribute in Hd. destruct (try_distribute now f S) as [od|] eqn:Ht; [|discriminate]. cbn [mbind option_bind] in *.
  destruct od as [dis|]; [|injection Hd as <-; done].
  apply try_distribute_Some in Ht as (_ & _ & added & _ & _ & _ & _ & _ & Hadd & Hrps).
  destruct (N.eqb_spec S 0) as [|_]; [done|].
  assert (Hx : d_rps dis = d_rps (f_dist f1)).
  { destruct (N.eqb_spec (d_rr (f_dist f)) (d_rr dis)) as [Hr|Hr]; cbn [mbind option_bind] in Hd.
    - injection Hd as <-. rewrite Hrps, Hadd, N.mul_0_l, div_zero_l by done. rewrite N.add_0_r.
      destruct (_ =? _); done.
    - injection Hd as <-. destruct (_ =? _); done. }
  now rewrite Hx.
Qed.

Theorem C51_displayed_is_claimed w now a fid f c' :
  freachable w -> w_now w <= now -> fs_farms (w_c w) !! fid = Some f ->
  claim_by_farm now (w_c w) a fid = Some c' ->
  exists am, get_unclaimed_reward now (w_c w) a fid = Some am /\
    reward_balance c' a (t_reward (f_terms f)) = reward_balance (w_c w) a (t_reward (f_terms f)) + am.
Proof.
  intros Hw Hn Hf H. apply winv_reachable in Hw as (Hi & _). destruct Hi as (H1 & H2 & H3 & H4 & H5).
  destruct (H1 fid f Hf) as (_ & Hseed & _ & (sd & Hsd & _) & _).
  unfold claim_by_farm in H. destruct (fs_farmers (w_c w) !! a) as [r|] eqn:Ha; [|discriminate]. cbn [mbind option_bind] in H.
  rewrite Hsd, Hf in H. unfold get_unclaimed_reward. rewrite Ha, Hsd, Hf.
  unfold claim_from_farm in H. pose proof H as H'. rewrite Ha in H. cbn [mbind option_bind] in H. rewrite Hf in H. cbn [mbind option_bind] in H.
  destruct (claim_user_reward _ _ _ _ _) as [[[f2 rps'] am]|] eqn:Hc; [|discriminate].
  exists am. split.
  - rewrite Hseed in Hc. eapply view_eq_claim; [exact Hc|]. intros Hz.
    specialize (H4 (fst fid)). unfold seed_total in H4. rewrite Hsd, Hz in H4.
    exact (msum_zero_inv _ _ _ _ (eq_sym H4) Ha).
  - pose proof (claim_from_farm_Some _ _ _ _ _ _ H') as (r0 & f0 & f1 & am0 & r' & Ha0 & Hf0 & Hd & _ & Ham & _ & -> & _ & _ & Hrw).
    replace r0 with r in * by congruence. replace f0 with f in * by congruence.
    apply claim_user_reward_Some in Hc as (f1' & Hd' & _ & Ham' & _). replace f1' with f1 in * by congruence.
    assert (am0 = am) as <- by congruence.
    unfold reward_balance. cbn [fs_farmers]. rewrite lookup_insert, Ha, Hrw, String.eqb_refl. done.
Qed.
Print Assumptions C51_displayed_is_claimed.
Example C51_ex : let c := w_c (ex_world ex_events) in
  get_unclaimed_reward (sec 400) c "alice" ex_fid = Some 222 /\
  match claim_by_farm (sec 400) c "alice" ex_fid with Some c' => reward_balance c' "alice" "rew" = 1821 | None => False end.
Proof. vm_compute. auto. Qed.

(** ** C52: pause and ownership *)
Definition user_call (x : fcall) : bool :=
  match x with
  | CStorageDeposit _ _ _ | CStorageWithdraw _ _ | CStorageUnregister _ | CClaimFarm _ | CClaimSeed _
  | CRemoveRps _ | CWithdrawSeed _ _ _ | CWithdrawReward _ _ _ => true
  | _ => false
  end.
Theorem C52_paused_user_calls_fail w now a x :
  fs_running (w_c w) = false -> user_call x = true -> fstep w (EvCall now a x) = None.
Proof.
  intros Hp Hx. cbn [fstep]. destruct (w_tick w now); [|done]. cbn [mbind option_bind].
  assert (E : fcall_exec now (w_c w) a x = None); [|now rewrite E].
  destruct x; try discriminate; cbn [fcall_exec];
    unfold storage_deposit, storage_withdraw, storage_unregister, claim_reward_by_farm, claim_reward_by_seed,
      remove_user_rps_by_farm, withdraw_seed, withdraw_reward; rewrite Hp; cbn [ensure mbind option_bind]; try done;
    destruct (ensure _); done.
Qed.
Print Assumptions C52_paused_user_calls_fail.
Theorem C52_paused_transfers_fail w now token a am msg :
  fs_running (w_c w) = false -> fstep w (EvToken now token a am msg) = None.
Proof.
  intros Hp. cbn [fstep]. destruct (w_tick w now); [|done]. cbn [mbind option_bind]. unfold ft_on_transfer. now rewrite Hp.
Qed.
Print Assumptions C52_paused_transfers_fail.
Theorem C52_owner_only w now a x :
  a <> fs_owner (w_c w) -> user_call x = false -> fstep w (EvCall now a x) = None.
Proof.
  intros Ha Hx. cbn [fstep]. destruct (w_tick w now); [|done]. cbn [mbind option_bind].
  assert (Ho : assert_owner (w_c w) a = None).
  { unfold assert_owner. destruct (String.eqb_spec a (fs_owner (w_c w))); [congruence|done]. }
  assert (E : fcall_exec now (w_c w) a x = None); [|now rewrite E].
  destruct x; try discriminate; cbn [fcall_exec];
    unfold create_simple_farm, set_owner, force_clean_farm, modify_seed_min_deposit, set_running; rewrite Ho;
    repeat match goal with |- context [ensure ?b] => destruct (ensure b) end; done.
Qed.
Print Assumptions C52_owner_only.
(** owner and running state only change by the owner's own calls *)
Lemma owner_claim_by_seed now c a s c' : claim_by_seed now c a s = Some c' -> fs_owner c' = fs_owner c /\ fs_running c' = fs_running c.
Proof.
  unfold claim_by_seed. intros H. destruct (fs_farmers c !! a); [|discriminate]. cbn [mbind option_bind] in H.
  destruct (fs_seeds c !! s) as [sd|]; [|now injection H as <-].
  revert c H. generalize (s_amount sd). intros n. induction (elements (s_farms sd)) as [|x l IH]; intros c H; cbn [claim_from_farms] in H.
  - now injection H as <-.
  - destruct (claim_from_farm _ _ _ _ _) as [c1|] eqn:E; [|discriminate]. cbn [mbind option_bind] in H.
    apply claim_from_farm_frame in E as (E1 & _ & _ & _ & _ & E2 & _). apply IH in H as [-> ->]. auto.
Qed.
Lemma owner_remove_rps c a fid c' : remove_rps c a fid = Some c' -> fs_owner c' = fs_owner c /\ fs_running c' = fs_running c.
Proof. intros H. apply remove_rps_Some in H as [->|(r & r' & _ & _ & _ & _ & ->)]; done. Qed.
Lemma owner_remove_rps_all a l : forall c c', remove_rps_all c a l = Some c' -> fs_owner c' = fs_owner c /\ fs_running c' = fs_running c.
Proof.
  induction l as [|x l IH]; intros c c' H; cbn [remove_rps_all] in H; [now injection H as <-|].
  destruct (remove_rps c a x) as [c1|] eqn:E; [|discriminate]. cbn [mbind option_bind] in H.
  apply IH in H as [-> ->]. eapply owner_remove_rps; eauto.
Qed.
Lemma owner_seed_deposit now c s a m c' : seed_deposit now c s a m = Some c' -> fs_owner c' = fs_owner c /\ fs_running c' = fs_running c.
Proof.
  unfold seed_deposit. intros H. destruct (claim_by_seed now c a s) as [c1|] eqn:Hc; [|discriminate]. cbn [mbind option_bind] in H.
  apply owner_claim_by_seed in Hc as [<- <-]. inv. subst. done.
Qed.
Lemma owner_seed_withdraw now c s a m c' : seed_withdraw now c s a m = Some c' -> fs_owner c' = fs_owner c /\ fs_running c' = fs_running c.
Proof.
  unfold seed_withdraw. intros H. destruct (claim_by_seed now c a s) as [c1|] eqn:Hc; [|discriminate]. cbn [mbind option_bind] in H.
  apply owner_claim_by_seed in Hc as [<- <-]. inv. destruct (_ =? 0).
  - apply owner_remove_rps_all in H as [-> ->]. done.
  - inv. subst. done.
Qed.
Theorem C52_only_owner_changes_state w e w' :
  fstep w e = Some w' ->
  fs_owner (w_c w') <> fs_owner (w_c w) \/ fs_running (w_c w') <> fs_running (w_c w) ->
  exists now x, e = EvCall now (fs_owner (w_c w)) x.
Proof.
  intros H Hne. destruct (match e with EvCall _ a _ => String.eqb a (fs_owner (w_c w)) | _ => false end) eqn:Ho.
  { destruct e as [now a x| | | |]; try discriminate. apply String.eqb_eq in Ho as ->. eauto. }
  exfalso. assert (fs_owner (w_c w') = fs_owner (w_c w) /\ fs_running (w_c w') = fs_running (w_c w)) as [E1 E2]; [|destruct Hne; congruence].
  clear Hne. destruct e as [now a x|now token a am msg|token am|id ok|now id].
  - destruct (user_call x) eqn:Hu.
    2:{ rewrite C52_owner_only in H; [discriminate| |done]. intros ->. now rewrite String.eqb_refl in Ho. }
    cbn [fstep] in H. destruct (w_tick w now); [|discriminate]. cbn [mbind option_bind] in H.
    destruct (fcall_exec now (w_c w) a x) as [[c' p]|] eqn:Hc; [|discriminate]. cbn [mbind option_bind] in H.
    assert (fs_owner c' = fs_owner (w_c w) /\ fs_running c' = fs_running (w_c w)) as [E1 E2].
    2:{ injection H as <-. destruct p; done. }
    clear H Ho. destruct x; try discriminate; cbn [fcall_exec] in Hc.
    + unfold storage_deposit, register_account in Hc. destruct (farmer_storage _ _).
      destruct (n0 =? 0), (fs_farmers (w_c w) !! a0); inv; subst; done.
    + unfold storage_withdraw in Hc. destruct (farmer_storage _ _). inv. subst. done.
    + unfold storage_unregister in Hc. destruct (fs_farmers (w_c w) !! a); inv; subst; done.
    + inv. subst. unfold claim_reward_by_farm, claim_by_farm in *. inv.
      destruct (fs_seeds (w_c w) !! fst fid), (fs_farms (w_c w) !! fid); inv; subst; try done.
      match goal with H : claim_from_farm _ _ _ _ _ = Some _ |- _ => apply claim_from_farm_frame in H as (E1 & _ & _ & _ & _ & E2 & _) end. done.
    + inv. subst. unfold claim_reward_by_seed in *. inv. subst. eapply owner_claim_by_seed; eauto.
    + inv. subst. unfold remove_user_rps_by_farm in *. inv. case_bool_decide; inv; subst; [done|]. eapply owner_remove_rps; eauto.
    + inv. subst. unfold withdraw_seed in *. inv. eapply owner_seed_withdraw; eauto.
    + inv. subst. match goal with H : withdraw_reward _ _ _ _ _ = _ |- _ => apply withdraw_reward_Some in H as (? & ? & _ & _ & _ & _ & ->) end. done.
  - cbn [fstep] in H. destruct (w_tick w now); [|discriminate]. cbn [mbind option_bind] in H.
    destruct (ft_on_transfer now (w_c w) token a am msg) as [c'|] eqn:Hc; [|discriminate]. cbn [mbind option_bind] in H.
    injection H as <-. cbn [w_c]. unfold ft_on_transfer in Hc. destruct msg; inv; subst; [done|]. eapply owner_seed_deposit; eauto.
  - cbn [fstep] in H. injection H as <-. done.
  - cbn [fstep] in H. destruct (w_pend w !! id) as [p|]; [|discriminate]. cbn [mbind option_bind] in H. destruct (pend_res p); [discriminate|].
    inv. subst. done.
  - cbn [fstep] in H. destruct (w_tick w now); [|discriminate]. cbn [mbind option_bind] in H.
    destruct (w_pend w !! id) as [p|]; [|discriminate]. cbn [mbind option_bind] in H.
    destruct (pend_res p) as [[|]|]; [| |discriminate]; injection H as <-; [done|]. cbn [w_c].
    destruct (callback_restore now (w_c w) p) as [c'|] eqn:Hcb; [|done]. cbn [default Datatypes.id].
    destruct p; cbn in Hcb.
    + apply restore_reward_Some in Hcb as (? & _ & ->). done.
    + eapply owner_seed_deposit; eauto.
Qed.
Print Assumptions C52_only_owner_changes_state.
Example C52_ex : fs_running (w_c (ex_world (ex_events ++ [EvCall (sec 320) "owner" (CPause 1)]))) = false.
Proof. vm_compute. reflexivity. Qed.

(** ** C53: nobody else can take a farmer's stake or rewards *)
Definition keeps (c c' : FState) : Prop :=
  forall b s, stake_of c b s <= stake_of c' b s /\ reward_balance c b s <= reward_balance c' b s.
Lemma keeps_refl c : keeps c c. Proof. intros b s. lia. Qed.
Lemma keeps_trans c1 c2 c3 : keeps c1 c2 -> keeps c2 c3 -> keeps c1 c3.
Proof. intros H1 H2 b s. specialize (H1 b s). specialize (H2 b s). lia. Qed.
Lemma keeps_ext c c' : fs_farmers c' = fs_farmers c -> keeps c c'.
Proof. intros E b s. unfold stake_of, reward_balance. rewrite E. lia. Qed.
Lemma keeps_claim c c' a : claim_frame c c' a -> keeps c c'.
Proof.
  intros (_ & _ & _ & _ & _ & _ & Ho & _ & Hw & _) b s. unfold stake_of, reward_balance.
  destruct (decide (b = a)) as [->|Hne]; [|rewrite Ho by done; lia].
  destruct (fs_farmers c !! a) as [r|] eqn:Hr; [|lia]. destruct (Hw r eq_refl) as (r' & -> & -> & _ & Hle).
  specialize (Hle s). lia.
Qed.
Lemma keeps_insert c c' a r' :
  fs_farmers c' = <[a := r']> (fs_farmers c) ->
  (forall s, stake_of c a s <= mget (fr_seeds r') s) -> (forall t, reward_balance c a t <= mget (fr_rewards r') t) -> keeps c c'.
Proof.
  intros E H1 H2 b s. destruct (decide (a = b)) as [<-|Hne].
  - specialize (H1 s). specialize (H2 s). unfold stake_of at 2, reward_balance at 2. rewrite E, lookup_insert. auto.
  - unfold stake_of, reward_balance. rewrite E, lookup_insert_ne by done. lia.
Qed.
Lemma keeps_remove_rps c a fid c' : remove_rps c a fid = Some c' -> keeps c c'.
Proof.
  intros H. apply remove_rps_Some in H as [->|(r & r' & Ha & Hs & Hw & _ & ->)]; [apply keeps_refl|].
  eapply keeps_insert; [reflexivity|intros s; rewrite (stake_of_Some _ _ _ _ Ha), Hs; lia|].
  intros t. unfold reward_balance. rewrite Ha, Hw. lia.
Qed.
Lemma keeps_remove_rps_all a l : forall c c', remove_rps_all c a l = Some c' -> keeps c c'.
Proof.
  induction l as [|x l IH]; intros c c' H; cbn [remove_rps_all] in H; [injection H as <-; apply keeps_refl|].
  destruct (remove_rps c a x) as [c1|] eqn:E; [|discriminate]. cbn [mbind option_bind] in H.
  eapply keeps_trans; [eapply keeps_remove_rps; eauto|eauto].
Qed.
Lemma keeps_seed_deposit now c s a m c' : finv now c -> seed_deposit now c s a m = Some c' -> keeps c c'.
Proof.
  intros Hi H. unfold seed_deposit in H. destruct (claim_by_seed now c a s) as [c1|] eqn:Hc; [|discriminate]. cbn [mbind option_bind] in H.
  destruct (finv_claim_by_seed _ _ _ _ _ Hi Hc) as (_ & _ & Hfr & _).
  apply keeps_claim in Hfr. eapply keeps_trans; [exact Hfr|]. clear Hfr Hc.
  destruct (fs_seeds c1 !! s); [|discriminate]. cbn [mbind option_bind] in H.
  destruct (cadd _ _ _); [|discriminate]. cbn [mbind option_bind fs_set_seeds fs_farmers] in H.
  destruct (fs_farmers c1 !! a) as [r|] eqn:Hr; [|discriminate]. cbn [mbind option_bind] in H.
  destruct (fr_add_seed r s m) as [r'|] eqn:Hadd; [|discriminate]. cbn [mbind option_bind] in H. injection H as <-.
  unfold fr_add_seed in Hadd.
  eapply keeps_insert; [reflexivity| |].
  - intros s'. rewrite (stake_of_Some _ _ _ _ Hr). destruct (0 <? m); inv; subst; [|lia]. cbn.
    destruct (decide (s = s')) as [<-|]; [rewrite mget_insert; lia|rewrite mget_insert_ne by done; lia].
  - intros t. unfold reward_balance. rewrite Hr. destruct (0 <? m); inv; subst; cbn; lia.
Qed.

(** the stake (resp. claimed reward) of a farmer only goes down by their own withdrawal call, by the
    amount put in flight for them *)
Theorem C53_only_own_withdrawals w e w' a s :
  freachable w -> fstep w e = Some w' ->
  (stake_of (w_c w') a s < stake_of (w_c w) a s ->
     exists now att am, e = EvCall now a (CWithdrawSeed att s am) /\
       stake_of (w_c w') a s + am = stake_of (w_c w) a s /\
       w_pend w' !! w_next w = Some (PSeed s a am None)) /\
  (reward_balance (w_c w') a s < reward_balance (w_c w) a s ->
     exists now att am sent, e = EvCall now a (CWithdrawReward att s am) /\
       reward_balance (w_c w') a s + sent = reward_balance (w_c w) a s /\
       w_pend w' !! w_next w = Some (PReward s a sent None)).
Proof.
  intros Hw H. apply winv_reachable in Hw as (Hi & _).
  assert (Hk : keeps (w_c w) (w_c w') \/
    (exists now b att s' am c', e = EvCall now b (CWithdrawSeed att s' am) /\ w_now w <= now /\
       seed_withdraw now (w_c w) s' b am = Some c' /\ w_c w' = c' /\ w_pend w' !! w_next w = Some (PSeed s' b am None)) \/
    (exists now b att t am c' sent, e = EvCall now b (CWithdrawReward att t am) /\
       withdraw_reward (w_c w) b att t am = Some (c', sent) /\ w_c w' = c' /\ w_pend w' !! w_next w = Some (PReward t b sent None))).
  { destruct e as [now b x|now token b am msg|token am|id ok|now id].
    - cbn [fstep] in H. destruct (w_tick w now) eqn:Ht; [|discriminate]. cbn [mbind option_bind] in H. apply w_tick_Some in Ht as [Hn _].
      apply (finv_mono _ now) in Hi; [|done].
      destruct (fcall_exec now (w_c w) b x) as [[c' p]|] eqn:Hc; [|discriminate]. cbn [mbind option_bind] in H.
      destruct x; cbn [fcall_exec] in Hc.
      + left. destruct (ensure _); [|discriminate]. cbn [mbind option_bind] in Hc. inv. subst. cbn [w_c].
        unfold create_simple_farm, internal_add_farm in *. inv. subst. now apply keeps_ext.
      + left. inv. subst. cbn [w_c]. unfold set_owner in *. inv. subst. now apply keeps_ext.
      + left. inv. subst. cbn [w_c]. unfold force_clean_farm in *. inv. subst.
        match goal with H : internal_remove_farm _ _ _ = Some (?x, _) |- _ => assert (fs_farmers x = fs_farmers (w_c w)); [unfold internal_remove_farm in H|now apply keeps_ext] end.
        destruct (fs_seeds (w_c w) !! fst fid), (fs_farms (w_c w) !! fid); inv; subst; try done.
        match goal with H : (if ?bb then _ else _) = _ |- _ => destruct bb; inv; subst; done end.
      + left. inv. subst. cbn [w_c]. unfold modify_seed_min_deposit in *. inv. subst. now apply keeps_ext.
      + left. inv. subst. cbn [w_c]. unfold set_running in *. inv. subst. now apply keeps_ext.
      + left. inv. subst. cbn [w_c]. unfold set_running in *. inv. subst. now apply keeps_ext.
      + left. unfold storage_deposit in Hc. destruct (farmer_storage _ _).
        assert (Hreg : forall n c', register_account (w_c w) a0 n = Some c' -> keeps (w_c w) c').
        { unfold register_account. intros k c0 Hreg. destruct (fs_farmers (w_c w) !! a0) as [r|] eqn:Hr; inv; subst.
          - eapply keeps_insert; [reflexivity|intros s'; rewrite (stake_of_Some _ _ _ _ Hr); cbn; lia|].
            intros t. unfold reward_balance. rewrite Hr. cbn. lia.
          - eapply keeps_insert; [reflexivity|intros s'; unfold stake_of; rewrite Hr; lia|].
            intros t. unfold reward_balance. rewrite Hr. lia. }
        destruct (n0 =? 0); inv; subst; cbn [w_c]; eauto.
      + left. unfold storage_withdraw in Hc. destruct (farmer_storage _ _).
        destruct (fs_farmers (w_c w) !! b) as [r|] eqn:Hr; inv; subst; cbn [w_c].
        eapply keeps_insert; [reflexivity|intros s'; rewrite (stake_of_Some _ _ _ _ Hr); cbn; lia|].
        intros t. unfold reward_balance. rewrite Hr. cbn. lia.
      + left. unfold storage_unregister in Hc. destruct (fs_farmers (w_c w) !! b) as [r|] eqn:Hr; inv; bool_inv; subst; cbn [w_c]; [|apply keeps_refl].
        intros b' s'. unfold stake_of, reward_balance. cbn [fs_set_count fs_set_farmers fs_farmers].
        destruct (decide (b = b')) as [<-|Hne]; [|rewrite lookup_delete_ne by done; lia].
        rewrite lookup_delete, Hr. replace (fr_seeds r) with (∅ : gmap string N) by (symmetry; assumption).
        replace (fr_rewards r) with (∅ : gmap string N) by (symmetry; assumption). unfold mget. rewrite lookup_empty. cbn. lia.
      + left. inv. subst. cbn [w_c]. unfold claim_reward_by_farm in *. inv. subst.
        match goal with H : claim_by_farm _ _ _ _ = Some _ |- _ => apply (finv_claim_by_farm _ _ _ _ _ Hi) in H as (_ & _ & ?) end.
        eauto using keeps_claim.
      + left. inv. subst. cbn [w_c]. unfold claim_reward_by_seed in *. inv. subst.
        match goal with H : claim_by_seed _ _ _ _ = Some _ |- _ => apply (finv_claim_by_seed _ _ _ _ _ Hi) in H as (_ & _ & ? & _) end.
        eauto using keeps_claim.
      + left. inv. subst. cbn [w_c]. unfold remove_user_rps_by_farm in *. inv. case_bool_decide; inv; subst; [apply keeps_refl|].
        eauto using keeps_remove_rps.
      + right. left. unfold withdraw_seed in Hc. inv. subst. cbn [w_c w_pend]. eexists now, b, _, _, _, _.
        split; [reflexivity|]. split; [done|]. split; [eassumption|]. split; [done|]. apply lookup_insert.
      + right. right. inv. subst. cbn [w_c w_pend]. eexists now, b, _, _, _, _, _.
        split; [reflexivity|]. split; [eassumption|]. split; [done|]. apply lookup_insert.
    - left. cbn [fstep] in H. destruct (w_tick w now) eqn:Ht; [|discriminate]. cbn [mbind option_bind] in H. apply w_tick_Some in Ht as [Hn _].
      apply (finv_mono _ now) in Hi; [|done].
      destruct (ft_on_transfer now (w_c w) token b am msg) as [c'|] eqn:Hc; [|discriminate]. cbn [mbind option_bind] in H.
      injection H as <-. cbn [w_c]. unfold ft_on_transfer in Hc. destruct msg; inv; subst; [now apply keeps_ext|]. eapply keeps_seed_deposit; eauto.
    - left. cbn [fstep] in H. injection H as <-. apply keeps_refl.
    - left. cbn [fstep] in H. destruct (w_pend w !! id) as [p|]; [|discriminate]. cbn [mbind option_bind] in H. destruct (pend_res p); [discriminate|].
      inv. subst. apply keeps_refl.
    - left. cbn [fstep] in H. destruct (w_tick w now) eqn:Ht; [|discriminate]. cbn [mbind option_bind] in H. apply w_tick_Some in Ht as [Hn _].
      apply (finv_mono _ now) in Hi; [|done].
      destruct (w_pend w !! id) as [p|]; [|discriminate]. cbn [mbind option_bind] in H.
      destruct (pend_res p) as [[|]|]; [| |discriminate]; injection H as <-; [apply keeps_refl|]. cbn [w_c].
      destruct (callback_restore now (w_c w) p) as [c'|] eqn:Hcb; [|apply keeps_refl]. cbn [default Datatypes.id].
      destruct p as [t b m res|s' b m res]; cbn in Hcb.
      + apply restore_reward_Some in Hcb as (r & Hr & ->).
        eapply keeps_insert; [reflexivity|intros s'; rewrite (stake_of_Some _ _ _ _ Hr); cbn; lia|].
        intros u0. unfold reward_balance. rewrite Hr. cbn.
        destruct (decide (t = u0)) as [<-|]; [rewrite mget_insert; lia|rewrite mget_insert_ne by done; lia].
      + eapply keeps_seed_deposit; eauto. }
  destruct Hk as [Hk|[(now & b & att & s' & am & c' & -> & Hn & Hsw & Ec & Hp)|(now & b & att & t & am & c' & sent & -> & Hwr & Ec & Hp)]].
  - destruct (Hk a s) as [K1 K2]. split; intros; lia.
  - rewrite Ec in *. apply (finv_mono _ now) in Hi; [|done].
    assert (Hst : (forall x y, (x, y) <> (b, s') -> stake_of (w_c w) x y <= stake_of c' x y) /\
                  stake_of c' b s' + am = stake_of (w_c w) b s' /\
                  (forall x y, reward_balance (w_c w) x y <= reward_balance c' x y)).
    { unfold seed_withdraw in Hsw.
      destruct (claim_by_seed now (w_c w) b s') as [c1|] eqn:Hc; [|discriminate]. cbn [mbind option_bind] in Hsw.
      destruct (finv_claim_by_seed _ _ _ _ _ Hi Hc) as (_ & _ & Hfr & _). pose proof (keeps_claim _ _ _ Hfr) as Hk.
      destruct Hfr as (_ & _ & _ & _ & _ & _ & _ & _ & Hown & _).
      destruct (fs_seeds c1 !! s') as [sd|]; [|discriminate]. cbn [mbind option_bind] in Hsw.
      destruct (fs_farmers c1 !! b) as [r|] eqn:Hr; [|discriminate]. cbn [mbind option_bind] in Hsw.
      destruct (fr_sub_seed r s' am) as [[r' remain]|] eqn:Hsub; [|discriminate]. cbn [mbind option_bind] in Hsw.
      destruct (csub _ _); [|discriminate]. cbn [mbind option_bind] in Hsw.
      set (c2 := fs_set_seeds (fs_set_farmers c1 (<[b:=r']> (fs_farmers c1))) _) in Hsw.
      assert (Hk2 : keeps c2 c' /\ (forall x y, stake_of c' x y = stake_of c2 x y)).
      { destruct (remain =? 0).
        - split; [eapply keeps_remove_rps_all; eauto|]. intros x y. eapply remove_rps_all_stake; eauto.
        - injection Hsw as <-. split; [apply keeps_refl|done]. }
      destruct Hk2 as (Hk2 & Hs2).
      assert (Hst1 : stake_of c1 b s' = stake_of (w_c w) b s').
      { unfold stake_of. rewrite Hr. destruct (fs_farmers (w_c w) !! b) as [r0|] eqn:E0.
        - destruct (Hown r0 eq_refl) as (r1 & Hr1 & E1 & _). congruence.
        - unfold claim_by_seed in Hc. rewrite E0 in Hc. discriminate. }
      unfold fr_sub_seed in Hsub. destruct (fr_seeds r !! s') as [pv|] eqn:Hpv; [|discriminate]. cbn [mbind option_bind] in Hsub.
      destruct (N.leb_spec am pv) as [Hle|]; [|discriminate]. cbn [ensure mbind option_bind] in Hsub. injection Hsub as Er' _.
      assert (Hpv' : stake_of c1 b s' = pv) by (unfold stake_of, mget; rewrite Hr, Hpv; done).
      split_and!.
      - intros x y Hxy. rewrite Hs2. transitivity (stake_of c1 x y); [apply Hk|]. unfold stake_of. subst c2. cbn [fs_set_seeds fs_set_farmers fs_farmers].
        destruct (decide (b = x)) as [<-|Hne]; [|rewrite lookup_insert_ne by done; lia].
        rewrite lookup_insert, Hr, <- Er'. cbn [fr_set_seeds fr_seeds]. destruct (0 <? pv - am).
        + rewrite mget_insert_ne by congruence. lia.
        + rewrite mget_delete_ne by congruence. lia.
      - rewrite Hs2, <- Hst1, Hpv'. unfold stake_of. subst c2. cbn [fs_set_seeds fs_set_farmers fs_farmers].
        rewrite lookup_insert, <- Er'. cbn [fr_set_seeds fr_seeds]. destruct (N.ltb_spec 0 (pv - am)).
        + rewrite mget_insert. lia.
        + rewrite mget_delete. lia.
      - intros x y. transitivity (reward_balance c2 x y); [|apply Hk2]. transitivity (reward_balance c1 x y); [apply Hk|].
        unfold reward_balance. subst c2. cbn [fs_set_seeds fs_set_farmers fs_farmers].
        destruct (decide (b = x)) as [<-|Hne]; [|rewrite lookup_insert_ne by done; lia].
        rewrite lookup_insert, Hr, <- Er'. cbn. lia. }
    destruct Hst as (S1 & S2 & S3). split.
    + intros Hlt. destruct (decide ((a, s) = (b, s'))) as [E|Hne].
      * injection E as -> ->. exists now, att, am. auto.
      * specialize (S1 _ _ Hne). lia.
    + intros Hlt. specialize (S3 a s). lia.
  - rewrite Ec in *. apply withdraw_reward_Some in Hwr as (r & r' & Hr & Hsub & _ & _ & ->).
    apply fr_sub_reward_Some in Hsub as (E1 & E2 & E3 & _).
    split.
    + intros Hlt. exfalso. revert Hlt. apply N.le_ngt, N.eq_le_incl. symmetry.
      eapply (stake_of_insert _ _ b r'); [reflexivity|]. now rewrite (stake_of_Some _ _ _ _ Hr), E1.
    + intros Hlt. unfold reward_balance in *. cbn [fs_set_farmers fs_farmers] in *. destruct (decide (b = a)) as [<-|Hne].
      * rewrite lookup_insert, Hr in *. destruct (decide (s = t)) as [->|Hst].
        -- exists now, att, am, sent. auto.
        -- rewrite E3 in Hlt by done. lia.
      * rewrite lookup_insert_ne in Hlt by done. lia.
Qed.
Print Assumptions C53_only_own_withdrawals.
Example C53_ex : let w := ex_world ex_events in
  match fstep w (EvCall (sec 400) "alice" (CWithdrawSeed 1 "lp" 150)) with
  | Some w' => stake_of (w_c w') "alice" "lp" = 50 /\ stake_of (w_c w) "alice" "lp" = 200 | None => False end.
Proof. vm_compute. auto. Qed.
