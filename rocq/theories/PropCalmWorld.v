(** * C108 for the exchange: over any events, the invariant per share of a stable pool falls only by rounding.
    Vocabulary: SpecCalm.v, SpecCalmWorld.v, SpecPaths.v. *)
From Verif Require Import Base BaseLemmas SimplePool SpecSimple StableMath StablePool SpecStable StablePoolProofs StablePoolInv SpecExact StableExact PropExact PropPrecise SpecCalm CalmProofs PropCalm.
From Verif Require Import Rates Account Pool Exchange SpecExchange ExchangeProofs ExchangeInv PoolFacts SpecWorld WorldProofs PropWorld ExExample PropLiquidity SpecPaths PropPaths SpecCalmWorld.

Lemma stable_exec rs now p o p' : pl_exec rs now (PStable p) o = Some p' ->
  exists so q, stable_op o = Some so /\ p' = PStable q /\ st_exec p (pl_env rs now p) so = Some q.
Proof.
  intros H. destruct o; cbn [pl_exec pl_swap pl_swap_by_output pl_add_liquidity pl_add_stable_liquidity pl_remove_liquidity pl_remove_by_tokens pl_share_transfer pl_share_register
    pl_share_unregister pl_ramp pl_stop_ramp pl_modify_total_fee] in H; try discriminate H; cbn [stable_op st_exec].
  all: try (apply fmap_Some in H as (r & H & ->); bnd H z Hz; destruct z; injection H as <-; do 2 eexists; split_and!; [reflexivity|reflexivity|cbn [st_exec]; rewrite Hz; reflexivity]).
  all: try (apply fmap_Some in H as (q & Hq & ->); do 2 eexists; split_and!; [reflexivity|reflexivity|exact Hq]).
  do 2 eexists. split; [reflexivity|]. destruct (_ <? FEE_DIVISOR) eqn:Ef; [|discriminate H]. injection H as <-. split; [reflexivity|]. cbn [st_exec]. now rewrite Ef.
Qed.
Lemma pl_env_now rs now p : pe_now (pl_env rs now p) = now.
Proof. unfold pl_env. destruct (st_kind p); reflexivity. Qed.

Lemma calm_extend A B E Q M rs now t0 p0 : now < 2 ^ 64 -> forall os t p k p', calm A B E Q M t0 p0 t p k -> t <= now ->
  calm_ops A B E Q M rs now p os -> pl_run rs now (PStable p) os = Some p' ->
  exists t' q, t' <= now /\ p' = PStable q /\ calm A B E Q M t0 p0 t' q (k + lsum (op_rounding Q <$> os)).
Proof.
  intros Hn os. induction os as [|o os IH]; intros t p k p' Hc Ht Ho H; cbn [pl_run calm_ops fmap list_fmap lsum] in *.
  - injection H as <-. exists t, p. split_and!; auto. now rewrite N.add_0_r.
  - apply bind_Some in H as (p1 & H1 & H). pose proof H1 as X. apply stable_exec in X as (so & q & Hso & -> & Hx). destruct (Ho so q Hso H1) as (HA & HM & Hcalm & Hrest).
    destruct (IH now q (k + rounding Q so) p') as (t' & q' & Ht' & -> & Hc'); [|lia|exact Hrest|exact H|].
    + rewrite <- (pl_env_now rs now p). eapply calm_step; [exact Hc|rewrite pl_env_now; exact Ht|rewrite pl_env_now; exact Hn|rewrite pl_env_now; exact HA|exact Hx|exact HM|exact Hcalm].
    + exists t', q'. split_and!; [exact Ht'|reflexivity|]. unfold op_rounding at 1. rewrite Hso, N.add_assoc. exact Hc'.
Qed.

Lemma step_time w ev w' : w_step w ev = Some w' -> w_now w < 2 ^ 64 -> w_now w <= w_now w' < 2 ^ 64.
Proof.
  intros H Hw. assert (Hq : forall c h m ps now, w_now (w_queue w c h m ps now) = now) by (intros; unfold w_queue; now destruct (enqueue _ _ _)).
  unfold w_step in H. cbv zeta in H. destruct ev; try (injection H as <-; cbn [w_now]; lia);
    repeat first
      [ match type of H with next_time _ _ ≫= _ = Some _ => let u := fresh in let Hu := fresh in bnd H u Hu; apply next_time_inv in Hu end
      | match type of H with _ ≫= _ = Some _ => let z := fresh in let Hz := fresh in bnd H z Hz end
      | match type of H with match ?x with _ => _ end = Some _ => destruct x; try discriminate H end
      | (injection H as <-; rewrite ?Hq; cbn [w_now]; lia) ].
Qed.

Lemma calm_keeps A B E Q M pid w w' k q m : m <= w_now w -> w_now w < 2 ^ 64 -> calm_world A B E Q M pid w w' k -> ex_pool (w_ex w) pid = Some (PStable q) ->
  w_now w' < 2 ^ 64 /\ exists t q' k', t <= w_now w' /\ k' <= k /\ ex_pool (w_ex w') pid = Some (PStable q') /\ calm A B E Q M m q t q' k'.
Proof.
  intros Hmw Hw H Hq. induction H as [Hs|w1 k ev w2 j Ha IH Hst Hcalm].
  - split; [done|]. exists m, q, 0. split_and!; [lia|lia|done|]. constructor. unfold supply_at in Hs. now rewrite Hq in Hs.
  - destruct IH as (Hw1 & t & q1 & k1 & Ht & Hk & Hq1 & Hc). pose proof (step_time _ _ _ Hst Hw1) as [Hle Hw2]. split; [done|].
    destruct (C107_refines _ _ _ _ _ Hst Hq1) as (os & p' & Ho & R & Hp'). destruct (Hcalm q1 os Hq1 Ho) as [Hos Hj]; [now rewrite R, Hp'|].
    destruct (calm_extend A B E Q M (ex_rates (w_ex w1)) (w_now w2) m q Hw2 os t q1 k1 p' Hc) as (t' & q' & Ht' & -> & Hc'); [lia|exact Hos|exact R|].
    exists t', q', (k1 + lsum (op_rounding Q <$> os)). split_and!; [exact Ht'|lia|exact Hp'|exact Hc'].
Qed.

(** The statement of C108_value for a pool of the exchange and any events of the world: trades by anyone, in chains and zaps, liquidity, transfers of
    shares and their refunds, liquidations, fees taken by the owner, events that do not concern the pool. *)
Theorem C108_exchange A B E Q M pid w w' k q d :
  let n := N.of_nat (length (st_tokens q)) in
  w_ok w -> w_now w < 2 ^ 64 -> ex_pool (w_ex w) pid = Some (PStable q) -> st_kind q = KStable -> st_tokens q <> [] -> 0 < M ->
  B * geometric B (length (st_tokens q) - 2) <= A * n ^ n * n ^ n ->
  calm_world A B E Q M pid w w' k -> at_most_D A (st_c q) d ->
  exists q' d', ex_pool (w_ex w') pid = Some (PStable q') /\ at_most_D A (st_c q') d' /\
    d * st_supply q' * M <= d' * st_supply q * M + k * st_supply q * st_supply q'.
Proof.
  intros n [Hwf _] Hw Hq Hk Hne HM HB H Hd. pose proof (ex_wf_pool _ _ _ _ Hwf Hq) as (m & Hm & Hr).
  destruct (calm_keeps A B E Q M pid w w' k q m Hm Hw H Hq) as (_ & t & q' & k' & _ & Hk' & Hq' & Hc).
  destruct (C108_value A B E Q M m q t q' k' d Hr Hk Hne HM HB Hc Hd) as (d' & H1 & H2). exists q', d'. split_and!; [exact Hq'|exact H1|].
  etransitivity; [exact H2|]. apply N.add_le_mono_l, N.mul_le_mono_r, N.mul_le_mono_r. exact Hk'.
Qed.
Print Assumptions C108_exchange.

(** alice trades with the stable pool of [w_rich] and withdraws shares *)
Definition calm_trade : Event := EvCall (env 118 "al" 1) (CSwap [ASwap 1 "b" (Some 100000) "c" 0] (Some "rf") false).
Definition calm_leave : Event := EvCall (env 119 "al" 1) (CRemoveLiquidity 1 (10 ^ 17) [0; 0]).
Definition w_calm1 : World := default w_rich (w_step w_rich calm_trade).
Definition w_calm2 : World := default w_rich (w_step w_calm1 calm_leave).
Definition at_pool (w : World) : StablePool :=
  match ex_pool (w_ex w) 1 with Some (PStable q) => q | _ => mkStablePool KStable [] [] [] 0 ∅ 0 0 0 0 0 end.
Lemma calm_worlds : w_step w_rich calm_trade = Some w_calm1 /\ w_step w_calm1 calm_leave = Some w_calm2.
Proof. split; apply run_default; vm_compute; reflexivity. Qed.
Lemma calm_pools : forallb (fun w => match ex_pool (w_ex w) 1 with Some (PStable q) => (st_get_amp q 118 =? 240) && (10 ^ 18 <=? st_supply q) && even_balancesb 240 3 (st_c q) && (length (st_tokens q) =? 2)%nat | _ => false end) [w_rich; w_calm1; w_calm2] &&
  calm_opb 240 3 3 2 (at_pool w_rich) (pl_env (ex_rates (w_ex w_rich)) 118 (at_pool w_rich)) (StSwap "b" 100000 "c" 0 (mkAdminFees 25 "ref" None)) (at_pool w_calm1) &&
  (st_get_amp (at_pool w_calm1) 119 =? 240) = true.
Proof. vm_compute. reflexivity. Qed.
Lemma at_pool_is w q : ex_pool (w_ex w) 1 = Some (PStable q) -> q = at_pool w.
Proof. intros H. unfold at_pool. now rewrite H. Qed.
Example C108_exchange_ex :
  w_ok w_rich /\ w_now w_rich < 2 ^ 64 /\ (exists q, ex_pool (w_ex w_rich) 1 = Some (PStable q) /\ st_kind q = KStable /\ length (st_tokens q) = 2%nat /\
     3 * geometric 3 (length (st_tokens q) - 2) <= 240 * 2 ^ 2 * 2 ^ 2) /\
  calm_world 240 3 3 2 (10 ^ 18) 1 w_rich w_calm2 3.
Proof.
  pose proof calm_pools as P. apply andb_true_iff in P as [P P3]. apply andb_true_iff in P as [P P2]. cbn [forallb] in P. rewrite !andb_true_iff in P. destruct P as (P0 & P1 & P4 & _).
  destruct (ex_pool (w_ex w_rich) 1) as [[|q0]|] eqn:Q0; [discriminate P0| |discriminate P0].
  destruct (ex_pool (w_ex w_calm1) 1) as [[|q1]|] eqn:Q1; [discriminate P1| |discriminate P1].
  destruct (ex_pool (w_ex w_calm2) 1) as [[|q2]|] eqn:Q2; [discriminate P4| |discriminate P4].
  rewrite !andb_true_iff in P0, P1, P4. destruct P0 as [[[P01 P02] P03] P04], P1 as [[[P11 P12] P13] P14], P4 as [[[P41 P42] P43] P44].
  rewrite <- (at_pool_is _ _ Q0), <- (at_pool_is _ _ Q1) in P2. rewrite <- (at_pool_is _ _ Q1) in P3.
  apply N.leb_le in P02, P12, P42. apply N.eqb_eq in P01, P3. apply Nat.eqb_eq in P04.
  split; [eapply w_reach_ok; [apply w_start_ok, w_fresh_start|apply rich_reach]|]. split; [vm_compute; reflexivity|]. split.
  { exists q0. rewrite P04. split_and!; [reflexivity| |reflexivity|vm_compute; discriminate].
    pose proof (at_pool_is _ _ Q0) as ->. vm_compute. reflexivity. }
  destruct calm_worlds as [S1 S2]. change 3 with (0 + 2 + 1) at 3. eapply calm_world_step; [eapply calm_world_step; [constructor| |]| |].
  - unfold supply_at. rewrite Q0. exact P02.
  - exact S1.
  - intros p os Hp Ho R. rewrite Q0 in Hp. injection Hp as <-. rewrite Q1 in R. change (w_now w_calm1) with 118 in *.
    cbn [event_ops calm_trade call_ops] in Ho. unfold trades_with in Ho. cbn [filter list_filter act_pool] in Ho. rewrite decide_True in Ho by reflexivity.
    apply Forall2_cons_inv_l in Ho as (o & os' & (x & f & Hf & Hx & ->) & Hn & ->). apply Forall2_nil_inv_l in Hn as ->. cbn [default from_option id] in Hx. subst x.
    split; [|reflexivity]. cbn [pl_run] in R. bnd R p1 Hp1. injection R as ->. cbn [calm_ops]. intros so p' [= <-] He. rewrite Hp1 in He. injection He as <-.
    split_and!; [exact P01|exact P12| |exact I]. apply calm_opb_sound. destruct f as [bps ex ri]. destruct Hf as [Hf _]. cbn [admin_fee_bps] in Hf. subst bps. exact P2.
  - exact S2.
  - intros p os Hp Ho R. rewrite Q1 in Hp. injection Hp as <-. rewrite Q2 in R. change (w_now w_calm2) with 119 in *.
    cbn [event_ops calm_leave call_ops] in Ho. change (hits 1 1 ?o) with [o] in Ho. subst os. cbn [pl_run] in R. bnd R p1 Hp1. injection R as ->.
    split; [|reflexivity]. cbn [calm_ops]. intros so p' [= <-] He. rewrite Hp1 in He. injection He as <-. split_and!; [exact P3|exact P42|exact I|exact I].
Qed.
