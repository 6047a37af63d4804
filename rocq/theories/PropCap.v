(** * C89: the value limit of degen pools *)
From Verif Require Import Base BaseLemmas SimplePool SimplePoolProofs SpecSimple SimplePoolInv StableMath StableMathProofs StablePool
  SpecStable StablePoolProofs StablePoolInv Rates Echo Twap Account Pool Exchange SpecExchange AccountProofs PoolFacts
  ExchangeProofs ExchangeInv ExchangeEffect ExchangeFrames SpecWorld WorldProofs ExExample PropWorld.

(** ** Specification *)
(** The recorded price of a token, in dollars with 24 decimals. *)
Definition dollar_price (c : Exchange) (t : AccountId) : N :=
  match rs_degens (ex_rates c) !! t with Some d => match dg_info d with Some (x, _) => x | None => 0 end | None => 0 end.
(** What the balances of a pool are worth, in dollars with 48 decimals (balances are recorded with 24). *)
Fixpoint worth (c : Exchange) (ts : list AccountId) (xs : list N) : N :=
  match ts, xs with t :: ts, x :: xs => x * dollar_price c t + worth c ts xs | _, _ => 0 end.
(** Under its limit up to one dollar per token. *)
Definition within_limit (c : Exchange) (pid : N) : Prop :=
  forall q lim, ex_pool c pid = Some (PStable q) -> st_kind q = KDegen -> cf_limits (ex_cfg c) !! pid = Some lim ->
    worth c (st_tokens q) (st_c q) + N.of_nat (length (st_tokens q)) <= (lim + N.of_nat (length (st_tokens q))) * 10 ^ 48.

(** ** Proofs *)
Lemma two_floors x : x / PRECISION / 10 ^ 24 = x / 10 ^ 48.
Proof. change (10 ^ 48) with (10 ^ 24 * 10 ^ 24). rewrite <- N.div_div by discriminate. reflexivity. Qed.
Lemma tvl_sum c ts : forall rs xs bs, mapM_ (fun t => d ← rs_degens (ex_rates c) !! t; fst <$> dg_info d) ts = Some rs -> rate_balances xs rs = Some bs -> length xs = length ts ->
  let total := lsum (map (fun v => v / 10 ^ 24) bs) in
  total * 10 ^ 48 <= worth c ts xs /\ worth c ts xs + N.of_nat (length ts) <= (total + N.of_nat (length ts)) * 10 ^ 48.
Proof.
  induction ts as [|t ts IH]; intros rs xs bs Hr Hb Hl; destruct xs as [|x xs]; try discriminate Hl; cbn [mapM_] in Hr.
  - injection Hr as <-. cbn in Hb. injection Hb as <-. cbn [map lsum worth length]. lia.
  - bnd Hr r0 Hr0. bnd Hr rs1 Hrs1. injection Hr as <-. cbn [rate_balances] in Hb. bnd Hb b Hb1. bnd Hb bs1 Hbs1. injection Hb as <-.
    destruct (IH _ _ _ Hrs1 Hbs1) as [L U]; [cbn in Hl; congruence|]. cbv zeta. cbn [map lsum worth length]. rewrite Nat2N.inj_succ.
    assert (Hp : dollar_price c t = r0). { bnd Hr0 d Hd. apply fmap_Some in Hr0 as ([v at_] & Hi & ->). unfold dollar_price. now rewrite Hd, Hi. }
    rewrite Hp. apply mul_rate_Some in Hb1 as [-> _]. rewrite two_floors.
    pose proof (N.div_mod (x * r0) (10 ^ 48) ltac:(discriminate)) as HD. pose proof (N.mod_lt (x * r0) (10 ^ 48) ltac:(discriminate)) as HM.
    set (k := 10 ^ 48) in *. set (y := x * r0 / k) in *. set (z := (x * r0) mod k) in *. set (m := lsum _) in *. set (w := worth _ _ _) in *. set (l := N.of_nat _) in *.
    clearbody k y z m w l. rewrite HD. split; nia.
Qed.

Lemma tvl_worth c now q x : st_wf q -> st_kind q = KDegen -> st_get_tvl q (pl_env (ex_rates c) now q) = Some x ->
  x * 10 ^ 48 <= worth c (st_tokens q) (st_c q) /\
  worth c (st_tokens q) (st_c q) + N.of_nat (length (st_tokens q)) <= (x + N.of_nat (length (st_tokens q))) * 10 ^ 48.
Proof.
  intros (_ & _ & Hl & _) Hk H. unfold st_get_tvl in H. bnd H rs Hr. bnd H bs Hb. apply csum_Some in H. rewrite N.add_0_l in H. subst x.
  unfold st_get_rates, pl_env, rs_pool_env in Hr. rewrite Hk in Hr. cbn [pe_rate] in Hr. eapply tvl_sum; eauto.
Qed.
Lemma worth_rates c c' : ex_rates c' = ex_rates c -> forall ts xs, worth c' ts xs = worth c ts xs.
Proof. intros Hr. induction ts as [|t ts IH]; intros [|y xs]; cbn [worth]; try done. rewrite IH. unfold dollar_price. now rewrite Hr. Qed.
Lemma put_within c now pid p p' : ex_wf now c -> pl_wf p' -> ex_pool c pid = Some p ->
  pl_assert_tvl p' (ex_rates c) now (cf_limits (ex_cfg c) !! pid) = Some tt -> within_limit (ex_put_pool c pid p') pid.
Proof.
  intros Hwf Hw Hp H q lim Hq Hk Hlim. change (cf_limits (ex_cfg (ex_put_pool c pid p'))) with (cf_limits (ex_cfg c)) in Hlim. rewrite Hlim in H.
  rewrite ex_pool_put in Hq by eauto. rewrite N.eqb_refl in Hq. injection Hq as ->. cbn [pl_assert_tvl] in H. rewrite Hk in H. bnd H x Hx. apply ensure_Some, N.leb_le in H.
  destruct (tvl_worth _ _ _ _ Hw Hk Hx) as [_ U].
  rewrite (worth_rates c) by reflexivity. set (l := N.of_nat _) in *. set (w := worth _ _ _) in *. set (k := 10 ^ 48) in *. clearbody l w k. nia.
Qed.
Lemma within_same c c' pid : ex_rates c' = ex_rates c -> cf_limits (ex_cfg c') = cf_limits (ex_cfg c) -> ex_pool c' pid = ex_pool c pid -> within_limit c pid -> within_limit c' pid.
Proof.
  intros Hr Hl Hp H q lim Hq Hk Hlim. rewrite Hp in Hq. rewrite Hl in Hlim. specialize (H _ _ Hq Hk Hlim).
  now rewrite (worth_rates c c' Hr).
Qed.

(** ** C89 *)
(** What the view and the check compute: the worth in whole dollars, rounded down per token. *)
Theorem C89_value now c pid q x : ex_wf now c -> ex_pool c pid = Some (PStable q) -> st_kind q = KDegen -> st_get_tvl q (pl_env (ex_rates c) now q) = Some x ->
  x * 10 ^ 48 <= worth c (st_tokens q) (st_c q) /\
  worth c (st_tokens q) (st_c q) + N.of_nat (length (st_tokens q)) <= (x + N.of_nat (length (st_tokens q))) * 10 ^ 48.
Proof. intros Hwf Hp. apply (tvl_worth c now q x (pl_reachable_wf _ _ (ex_wf_pool _ _ _ _ Hwf Hp))). Qed.
Print Assumptions C89_value.
(** Adding liquidity leaves the pool within its limit. *)
Theorem C89_add c e pid am mn c' ps : ex_wf (e_now e) c -> ex_call c e (CAddStableLiquidity pid am mn) = Some (c', ps) -> within_limit c' pid.
Proof.
  intros Hwf H. cbn [ex_call] in H. apply keep2_inv in H as (sh & H).
  apply ex_add_stable_liquidity_inv in H as (tw & p & p' & acc & acc' & _ & _ & Hp & _ & Hadd & Ht & _ & _ & _ & _ & ->).
  pose proof (pl_reachable_wf _ _ (ex_wf_pool _ _ _ _ Hwf Hp)) as Hpw. pose proof (pl_add_stable_spec _ _ _ _ _ _ _ _ _ Hpw Hadd) as (Hst & _).
  assert (Hw' : pl_wf p') by (eapply pl_step_wf; eauto).
  apply (within_same (ex_put_pool c pid p')); [reflexivity|reflexivity|reflexivity|]. exact (put_within c _ pid p p' Hwf Hw' Hp Ht).
Qed.
Print Assumptions C89_add.
Lemma zap_within e s l : forall c m c' m', ex_wf (e_now e) c -> e_now e < 2 ^ 64 -> ex_zap_loop c e s m l = Some (c', m') ->
  forall pid, (within_limit c pid \/ exists i, In i l /\ ai_pool i = pid) -> within_limit c' pid.
Proof.
  induction l as [|i l IH]; intros c m c' m' Hwf HW H pid Hin; cbn [ex_zap_loop] in H.
  - injection H as <- <-. destruct Hin as [?|(i & [] & _)]. done.
  - bnd H z Hz. destruct z as [c1 m1]. apply ex_zap_one_inv in Hz as (p & p' & am & sh & Hp & Hadd & Ht & _ & ->).
    pose proof (ex_wf_pool _ _ _ _ Hwf Hp) as Hpr. pose proof (pl_reachable_wf _ _ Hpr) as Hpw.
    assert (Hst : pl_step (ex_rates c) (e_now e) p p').
    { destruct Hadd as [(_ & Hadd & _)|(_ & _ & mn & _ & Hadd)]; [eapply pl_add_spec in Hadd as (? & _)|eapply pl_add_stable_spec in Hadd as (? & _)]; eauto. }
    assert (Hw' : pl_wf p') by (eapply pl_step_wf; eauto).
    apply (IH _ _ _ _ (ex_wf_put_pool _ _ _ _ Hwf (pl_step_reachable _ _ _ _ _ Hpr (N.le_refl _) HW Hst)) HW H). destruct (decide (pid = ai_pool i)) as [->|Hne].
    + left. now apply (put_within c (e_now e) _ p).
    + destruct Hin as [Hin|(j & [->|Hj] & Hj2)]; [left|congruence|right; eauto].
      apply (within_same c); [reflexivity|reflexivity| |exact Hin]. rewrite ex_pool_put by eauto. destruct (N.eqb_spec (ai_pool i) pid); [congruence|done].
Qed.
(** So does every liquidity added along with an incoming transfer. *)
Theorem C89_zap c e s x r l infos skip c' ps i : ex_wf (e_now e) c -> e_now e < 2 ^ 64 ->
  ex_ft_on_transfer c e s x (MsgHotZap r l infos skip) = Some (c', ps) -> In i infos -> within_limit c' (ai_pool i).
Proof.
  intros Hwf HW H Hi. unfold ex_ft_on_transfer in H. cbv zeta in H. grd H. grd H. bnd H c1 H1. injection H as <- <-.
  apply ex_hot_zap_inv in H1 as (acc & ts & c2 & outs & m & c3 & m' & acc' & _ & _ & _ & _ & _ & _ & Hd & _ & Hz & _ & _ & _ & ->).
  apply ex_direct_moved in Hd as [_ M1]; auto. apply (within_same c3); [reflexivity|reflexivity|reflexivity|].
  eapply zap_within; [| |exact Hz|right; eauto]; [apply M1|done].
Qed.
Print Assumptions C89_zap.
(** And the limit refuses only what exceeds it. *)
Theorem C89_room c now pid q x lim : ex_wf now c -> ex_pool c pid = Some (PStable q) -> st_kind q = KDegen -> st_get_tvl q (pl_env (ex_rates c) now q) = Some x ->
  worth c (st_tokens q) (st_c q) < (lim + 1) * 10 ^ 48 -> pl_assert_tvl (PStable q) (ex_rates c) now (Some lim) = Some tt.
Proof.
  intros Hwf Hp Hk Hx Hw. destruct (C89_value _ _ _ _ _ Hwf Hp Hk Hx) as [L _]. cbn [pl_assert_tvl]. rewrite Hk, Hx. cbn [mbind option_bind].
  apply ensure_intro, N.leb_le. set (k := 10 ^ 48) in *. set (w := worth _ _ _) in *. clearbody k w. nia.
Qed.
Print Assumptions C89_room.

(** A degen pool of [u] and [v] at 1 and 2 dollars with a limit of 3500 dollars; al adds 1000 of each, bo has 2000 of [v]. *)
Definition cap_events : list Event :=
  [ EvCall (env 101 "own" 1) (CExtendWhitelist ["u"; "v"]);
    EvCall (env 102 "own" (10 ^ 24)) (CStorageDeposit None false);
    EvCall (env 102 "al" (10 ^ 24)) (CStorageDeposit None false);
    EvCall (env 103 "bo" (10 ^ 24)) (CStorageDeposit None false);
    EvCall (env 104 "own" 1) (CRateAdmin (RegisterConfig (CfgPyth (mkPythOracleConfig "pyth" (3600 * 10 ^ 9) 60))));
    EvCall (env 105 "own" 1) (CRateAdmin (RegisterDegen "u" (DPyth "pu")));
    EvCall (env 105 "own" 1) (CRateAdmin (RegisterDegen "v" (DPyth "pv")));
    EvCall (env 106 "own" 1) (CAddStablePool KDegen ["u"; "v"] [18; 18] 25 240);
    EvOracle 107 (OaDegen "u" (DAnsPyth (mkPythPrice 1 0 1)));
    EvOracle 107 (OaDegen "v" (DAnsPyth (mkPythPrice 2 0 1)));
    EvCall (env 108 "own" 1) (CAddLimit 0 3500);
    EvArrive "u" "al" (5000 * 10 ^ 18) MsgDeposit; EvNotify 1 (env 110 "u" 0);
    EvArrive "v" "al" (5000 * 10 ^ 18) MsgDeposit; EvNotify 2 (env 110 "v" 0);
    EvArrive "v" "bo" (5000 * 10 ^ 18) MsgDeposit; EvNotify 3 (env 110 "v" 0);
    EvCall (env 111 "al" 1) (CAddStableLiquidity 0 [1000 * 10 ^ 18; 1000 * 10 ^ 18] 0) ].
Definition w_cap : World := default w_fresh (w_run w_fresh cap_events).
Definition cap_tvl (w : World) : option N := match ex_pool (w_ex w) 0 with Some (PStable q) => st_get_tvl q (pl_env (ex_rates (w_ex w)) (w_now w) q) | _ => None end.
Definition c_added : Exchange := (default (w_ex w_cap, []) (ex_call (w_ex w_cap) (env 112 "al" 1) (CAddStableLiquidity 0 [100 * 10 ^ 18; 100 * 10 ^ 18] 0))).1.
Example C89_ex : w_run w_fresh cap_events = Some w_cap /\ ex_wf 112 (w_ex w_cap) /\ cap_tvl w_cap = Some 3000 /\
  done_ (ex_call (w_ex w_cap) (env 112 "al" 1) (CAddStableLiquidity 0 [1000 * 10 ^ 18; 1000 * 10 ^ 18] 0)) = false /\
  done_ (ex_call (w_ex w_cap) (env 112 "al" 1) (CAddStableLiquidity 0 [100 * 10 ^ 18; 100 * 10 ^ 18] 0)) = true /\
  worth c_added ["u"; "v"] (match ex_pool c_added 0 with Some (PStable q) => st_c q | _ => [] end) = 3300 * 10 ^ 48.
Proof.
  assert (R : w_run w_fresh cap_events = Some w_cap) by (apply run_default; vm_compute; reflexivity).
  split; [exact R|]. split; [|split; [vm_compute; reflexivity|]; split; [vm_compute; reflexivity|]; split; vm_compute; reflexivity]. apply (ex_wf_later (w_now w_cap)); [vm_compute; discriminate|].
  assert (Hok : w_ok w_cap); [|apply Hok]. eapply w_reach_ok; [apply w_start_ok, w_fresh_start|]. eapply w_run_reach; [apply w_reach_refl|exact R].
Qed.
Definition within_b (c : Exchange) : bool :=
  match ex_pool c 0, cf_limits (ex_cfg c) !! 0 with
  | Some (PStable q), Some lim =>
      match st_kind q with KDegen => worth c (st_tokens q) (st_c q) + N.of_nat (length (st_tokens q)) <=? (lim + N.of_nat (length (st_tokens q))) * 10 ^ 48 | _ => true end
  | _, _ => true
  end.
Lemma within_b_within c : within_b c = true -> within_limit c 0.
Proof. intros H q lim Hq Hk Hl. unfold within_b in H. rewrite Hq, Hl, Hk in H. now apply N.leb_le. Qed.
Lemma within_within_b c : within_limit c 0 -> within_b c = true.
Proof.
  intros H. unfold within_b. destruct (ex_pool c 0) as [[q|q]|] eqn:Hq; try done. destruct (cf_limits (ex_cfg c) !! 0) as [lim|] eqn:Hl; try done.
  destruct (st_kind q) eqn:Hk; try done. apply N.leb_le. exact (H _ _ Hq Hk Hl).
Qed.
(** Trades are not limited: bo's trade takes the pool from 3000 to 3804 dollars. *)
Definition w_traded : World := default w_fresh (w_step w_cap (EvCall (env 112 "bo" 1) (CSwap [ASwap 0 "v" (Some (900 * 10 ^ 18)) "u" 0] None false))).
Theorem C89_trade_refuted :
  w_reach w_fresh w_cap /\ within_limit (w_ex w_cap) 0 /\
  w_step w_cap (EvCall (env 112 "bo" 1) (CSwap [ASwap 0 "v" (Some (900 * 10 ^ 18)) "u" 0] None false)) = Some w_traded /\
  ~ within_limit (w_ex w_traded) 0.
Proof.
  assert (R : w_run w_fresh cap_events = Some w_cap) by (apply run_default; vm_compute; reflexivity).
  split; [eapply w_run_reach; [apply w_reach_refl|exact R]|]. split; [|split].
  - apply within_b_within. vm_compute. reflexivity.
  - apply run_default. vm_compute. reflexivity.
  - intros H. apply within_within_b in H. revert H. vm_compute. discriminate.
Qed.
Print Assumptions C89_trade_refuted.
(** Two hours after the prices were recorded they have expired: trades are refused, liquidity is still added at them. *)
Theorem C89_stale_refuted :
  w_reach w_fresh w_cap /\
  done_ (w_step w_cap (EvCall (env (7200 * 10 ^ 9) "al" 1) (CAddStableLiquidity 0 [100 * 10 ^ 18; 100 * 10 ^ 18] 0))) = true /\
  done_ (w_step w_cap (EvCall (env (7200 * 10 ^ 9) "bo" 1) (CSwap [ASwap 0 "v" (Some (900 * 10 ^ 18)) "u" 0] None false))) = false.
Proof.
  split; [|split; vm_compute; reflexivity]. eapply w_run_reach; [apply w_reach_refl|]. apply (run_default w_fresh (w_run w_fresh cap_events)). vm_compute. reflexivity.
Qed.
Print Assumptions C89_stale_refuted.
