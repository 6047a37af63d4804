(** * C68, C69: bounds of fees, and what every setting becomes *)
From Verif Require Import PropSimple PropStable.
From Verif Require Import Base BaseLemmas SimplePool SimplePoolProofs SpecSimple SimplePoolInv StableMath StablePool
  SpecStable StablePoolProofs StablePoolInv Rates Echo PropEcho Twap Account Pool Exchange SpecExchange AccountProofs PoolFacts
  ExchangeProofs ExchangeInv ExchangeEffect ExchangeFrames SpecWorld WorldProofs ExExample PropWorld SpecSwap SpecHistory HistoryProofs
  SpecAccess AccessProofs SpecSettings.

(** ** Sets *)
Lemma set_remove_spec l : forall s s', set_remove s l = Some s' -> forall a, a ∈ s' <-> a ∈ s /\ a ∉ l.
Proof.
  induction l as [|x l IH]; intros s s' H a; cbn [set_remove] in H; [injection H as <-; set_solver|].
  bnd H u Hu. rewrite (IH _ _ H a). set_solver.
Qed.
Lemma set_extend_spec s l a : a ∈ set_extend s l <-> a ∈ l \/ a ∈ s.
Proof. unfold set_extend. set_solver. Qed.
Lemma wl_extend_spec d l : forall s s', wl_extend d s l = Some s' -> forall a, a ∈ s' <-> a ∈ l \/ a ∈ s.
Proof.
  induction l as [|x l IH]; intros s s' H a; cbn [wl_extend] in H; [injection H as <-; set_solver|].
  bnd H u Hu. bnd H v Hv. rewrite (IH _ _ H a). set_solver.
Qed.
Lemma wl_remove_spec l : forall s s', wl_remove s l = Some s' -> forall a, a ∈ s' <-> a ∈ s /\ a ∉ l.
Proof.
  induction l as [|x l IH]; intros s s' H a; cbn [wl_remove] in H; [injection H as <-; set_solver|].
  bnd H u Hu. rewrite (IH _ _ H a). set_solver.
Qed.

(** ** Settings of the exchange *)
Lemma set_same s add del ev : listed add ev = [] -> listed del ev = [] -> set_becomes s s add del ev.
Proof. intros A B a. rewrite A, B. set_solver. Qed.
Lemma set_added s s' add del ev : (forall a, a ∈ s' <-> a ∈ listed add ev \/ a ∈ s) -> listed del ev = [] -> set_becomes s' s add del ev.
Proof. intros A B a. rewrite A, B. set_solver. Qed.
Lemma set_removed s s' add del ev : (forall a, a ∈ s' <-> a ∈ s /\ a ∉ listed del ev) -> listed add ev = [] -> set_becomes s' s add del ev.
Proof. intros A B a. rewrite A, B. set_solver. Qed.
Lemma map_put `{Countable K} {V} (m : gmap K V) i v says ev :
  (x ← call_of ev; says x) = Some (i, Some v) -> map_becomes (<[i := v]> m) m says ev.
Proof. intros E k. rewrite E. destruct (decide (i = k)) as [->|]; [apply lookup_insert|now apply lookup_insert_ne]. Qed.
Lemma map_del `{Countable K} {V} (m : gmap K V) i says ev :
  (x ← call_of ev; says x) = Some (i, None) -> map_becomes (delete i m) m says ev.
Proof. intros E k. rewrite E. destruct (decide (i = k)) as [->|]; [apply lookup_delete|now apply lookup_delete_ne]. Qed.
Lemma map_same `{Countable K} {V} (m : gmap K V) says ev : (x ← call_of ev; says x) = None -> map_becomes m m says ev.
Proof. intros E k. now rewrite E. Qed.

Ltac rule_tac :=
  first
    [ reflexivity
    | apply set_same; reflexivity
    | apply map_same; reflexivity
    | apply map_put; reflexivity
    | apply map_del; reflexivity
    | apply set_added; [intros ?; apply set_extend_spec|reflexivity]
    | apply set_removed; [eapply set_remove_spec; eassumption|reflexivity]
    | apply set_added; [eapply wl_extend_spec; eassumption|reflexivity]
    | apply set_removed; [eapply wl_remove_spec; eassumption|reflexivity] ].
Ltac rules := unfold settings_rule; repeat match goal with |- _ /\ _ => split; [rule_tac|] end; rule_tac.

Lemma rule_none ev k : (forall e x, ev = EvCall e x -> is_settings x = false) -> settings_rule ev k k.
Proof. intros H. destruct ev as [e x| | | | | | | | | |]; [specialize (H e x eq_refl); destruct x; try discriminate H|..]; clear; rules. Qed.
Lemma rule_call c e x c' ps : ex_call c e x = Some (c', ps) -> settings_rule (EvCall e x) (ex_cfg c) (ex_cfg c').
Proof.
  intros H. destruct (is_settings x) eqn:Es.
  2: { apply ex_call_settings in H as (-> & _); [|done]. apply rule_none. congruence. }
  destruct x; try discriminate Es; clear Es; cbn [ex_call] in H; try (apply quiet_inv in H as [H ->]); open_call H.
  all: repeat match type of H with mbind _ _ = Some _ => let y := fresh "y" in let Hy := fresh "Hy" in apply bind_Some in H as (y & Hy & H) end.
  all: try (injection H as <-); try (injection H as <- _); try (rules; fail).
  - destruct (Bool.eqb (cf_running (ex_cfg c)) b) eqn:E; [injection H as <-|bnd H u Hu; injection H as <-; rules].
    apply Bool.eqb_prop in E. unfold settings_rule, becomes. cbn [call_of default]. rewrite E. rules.
  - destruct w; rules.
  - destruct w; rules.
Qed.

(** ** What the oracles are asked *)
Lemma lookup_kind (m : gmap AccountId Rate) k : (rt_kind <$> m) !! k = rt_kind <$> m !! k. Proof. apply lookup_fmap. Qed.
Lemma oracle_none ev s s' : asked s' = asked s -> (forall e a, ev <> EvCall e (CRateAdmin a)) -> oracle_rule ev s s'.
Proof.
  intros E H. unfold asked in E. injection E as E1 E2 E3 E4.
  assert (E1' : rt_kind <$> rs_rates s' = rt_kind <$> rs_rates s).
  { assert (K : forall m : gmap AccountId Rate, rt_kind <$> m = fst <$> ((fun r => (rt_kind r, rt_contract r)) <$> m)).
    { intros m. rewrite <- map_fmap_compose. reflexivity. }
    now rewrite !K, E1. }
  unfold oracle_rule. rewrite E1', E2, E3, E4.
  destruct ev as [e x| | | | | | | | | |]; [destruct x|..]; try (exfalso; eapply H; reflexivity); clear; unfold map_becomes, becomes; split_and!; reflexivity.
Qed.
Lemma oracle_admin e a s s' : rate_admin s a = Some s' -> oracle_rule (EvCall e (CRateAdmin a)) s s'.
Proof.
  intros H. destruct a; cbn [rate_admin] in H.
  - unfold rs_register_rate in H. destruct (rs_rates s !! t); [discriminate H|]. bnd H r Hr. unfold rate_new in Hr. bnd Hr u Hu. injection Hr as <-. injection H as <-.
    unfold oracle_rule. cbn [rs_set_rates rs_rates rs_degens rs_price_cfg rs_pyth_cfg]. rewrite fmap_insert. cbn [rt_kind].
    split; [now apply map_put|]. split; [now apply map_same|]. split; reflexivity.
  - injection H as <-. unfold oracle_rule, rs_unregister_rate. cbn [rs_set_rates rs_rates rs_degens rs_price_cfg rs_pyth_cfg]. rewrite fmap_delete.
    split; [now apply map_del|]. split; [now apply map_same|]. split; reflexivity.
  - unfold rs_update_extra in H. bnd H r Hr. destruct (rt_kind r); try discriminate H. bnd H u Hu. injection H as <-.
    unfold oracle_rule. cbn [rs_set_rates rs_rates rs_degens rs_price_cfg rs_pyth_cfg]. rewrite fmap_insert. cbn [rt_kind].
    split; [now apply map_put|]. split; [now apply map_same|]. split; reflexivity.
  - unfold rs_register_degen in H. destruct (rs_degens s !! t); [discriminate H|]. injection H as <-.
    unfold oracle_rule. cbn [rs_set_degens rs_rates rs_degens rs_price_cfg rs_pyth_cfg]. rewrite fmap_insert. cbn [degen_new dg_src].
    split; [now apply map_same|]. split; [now apply map_put|]. split; reflexivity.
  - unfold rs_update_degen in H. bnd H d Hd. injection H as <-.
    unfold oracle_rule. cbn [rs_set_degens rs_rates rs_degens rs_price_cfg rs_pyth_cfg]. rewrite fmap_insert. cbn [degen_new dg_src].
    split; [now apply map_same|]. split; [now apply map_put|]. split; reflexivity.
  - injection H as <-. unfold oracle_rule, rs_unregister_degen. cbn [rs_set_degens rs_rates rs_degens rs_price_cfg rs_pyth_cfg]. rewrite fmap_delete.
    split; [now apply map_same|]. split; [now apply map_del|]. split; reflexivity.
  - unfold rs_register_config in H. bnd H u Hu. injection H as <-. destruct k; (split; [now apply map_same|]; split; [now apply map_same|]; split; reflexivity).
  - injection H as <-. unfold rs_unregister_config, oracle_rule, becomes. cbn [call_of].
    destruct (String.eqb_spec key "PriceOracleConfig") as [->|]; [|destruct (String.eqb_spec key "PythOracleConfig") as [->|]];
      (split; [now apply map_same|]; split; [now apply map_same|]; split; reflexivity).
  - unfold rs_update_config in H. bnd H u Hu. injection H as <-. destruct k; (split; [now apply map_same|]; split; [now apply map_same|]; split; reflexivity).
Qed.
Lemma oracle_call c e x c' ps : ex_call c e x = Some (c', ps) -> oracle_rule (EvCall e x) (ex_rates c) (ex_rates c').
Proof.
  intros H. destruct (match x with CRateAdmin _ => true | _ => false end) eqn:Ex.
  - destruct x; try discriminate Ex. cbn [ex_call] in H. apply quiet_inv in H as [H ->]. unfold ex_rate_admin in H. bnd H u Hu. bnd H s Hs. injection H as <-.
    now apply oracle_admin.
  - apply oracle_none; [|intros e' a E; injection E as _ ->; discriminate Ex].
    destruct (is_settings x) eqn:Es; [|apply ex_call_settings in H as (_ & -> & _); done].
    destruct x; try discriminate Es; try discriminate Ex; clear Es Ex; cbn [ex_call] in H; try (apply quiet_inv in H as [H ->]); open_call H.
    all: repeat match type of H with
         | mbind _ _ = Some _ => let y := fresh "y" in let Hy := fresh "Hy" in apply bind_Some in H as (y & Hy & H)
         | (if ?b then _ else _) = Some _ => destruct b
         end; first [injection H as <- _|injection H as <-]; reflexivity.
Qed.

(** ** Pools *)
Lemma pool_same ev now pid p p' :
  match call_of ev with Some (CModifyTotalFee i _) | Some (CRamp i _ _) | Some (CStopRamp i) => i <> pid | _ => True end ->
  pl_params p' = pl_params p -> pool_rule ev now pid p p'.
Proof.
  intros H E. unfold pool_rule, becomes. rewrite E. destruct (call_of ev) as [[]|]; try (split; reflexivity).
  all: apply N.eqb_neq in H; rewrite H; split; reflexivity.
Qed.
Lemma pools_kept ev now c c' :
  match call_of ev with Some (CModifyTotalFee _ _) | Some (CRamp _ _ _) | Some (CStopRamp _) => False | _ => True end ->
  params_kept c c' -> pools_rule ev now c c'.
Proof.
  intros H K pid p Hp. destruct (K pid p Hp) as (p' & Hp' & E). exists p'. split; [done|]. apply pool_same; [|done].
  destruct (call_of ev) as [[]|]; done.
Qed.
Lemma pools_put ev now c pid p p' :
  (match call_of ev with Some (CModifyTotalFee i _) | Some (CRamp i _ _) | Some (CStopRamp i) => i = pid | _ => True end) ->
  ex_pool c pid = Some p -> pool_rule ev now pid p p' -> pools_rule ev now c (ex_put_pool c pid p').
Proof.
  intros H Hp K i q Hq. unfold ex_pool in *. unfold ex_put_pool. ex_cbn. destruct (decide (i = pid)) as [->|Hne].
  - exists p'. rewrite Hp in Hq. injection Hq as <-. split; [|exact K]. apply list_lookup_insert. now apply lookup_lt_Some in Hp.
  - exists q. split; [rewrite list_lookup_insert_ne by lia; exact Hq|]. apply pool_same; [|reflexivity].
    destruct (call_of ev) as [[]|]; try done; congruence.
Qed.
Lemma pools_call c e x c' ps :
  ex_wf (e_now e) c -> e_now e < 2 ^ 64 -> ex_call c e x = Some (c', ps) -> pools_rule (EvCall e x) (e_now e) c c'.
Proof.
  intros Hwf HW H. destruct (match x with CModifyTotalFee _ _ | CRamp _ _ _ | CStopRamp _ => true | _ => false end) eqn:Ex.
  - assert (Hpl : forall i q, ex_pool c i = Some q -> pl_reachable (e_now e) q).
    { intros i q Hq. destruct Hwf as [Hwf _]. rewrite Forall_lookup in Hwf. eapply Hwf. exact Hq. }
    destruct x; try discriminate Ex; clear Ex; cbn [ex_call] in H; apply quiet_inv in H as [H ->]; open_call H; grd H.
    + grd H. bnd H p Hp. injection H as <-. eapply pools_put; [reflexivity|exact Hp|]. unfold pool_rule, becomes. cbn [call_of].
      rewrite N.eqb_refl. destruct p; split; reflexivity.
    + bnd H p Hp. bnd H p' Hp'. injection H as <-. eapply pools_put; [reflexivity|exact Hp|].
      specialize (Hpl _ _ Hp). destruct p as [q|q]; [discriminate Hp'|]. cbn [pl_ramp] in Hp'.
      destruct (st_ramp_amplification q _ amp time) as [q'|] eqn:Eq; [|discriminate Hp']. injection Hp' as <-. destruct Hpl as (n & Hn & Hr).
      pose proof (st_reachable_amp _ _ Hr) as Ha.
      apply st_ramp_inv in Eq as (rates & am & _ & Hamp & _ & _ & _ & _ & _ & _ & ->).
      rewrite <- W64_pow in HW.
      assert (En : pe_now (pl_env (ex_rates c) (e_now e) q) = e_now e) by (unfold pl_env, rs_pool_env; destruct (st_kind q); reflexivity).
      rewrite En in *. rewrite (st_amp_value n q (e_now e) rates Ha Hn HW) in Hamp. injection Hamp as <-.
      unfold pool_rule, becomes. cbn [call_of]. rewrite N.eqb_refl. split; reflexivity.
    + bnd H p Hp. bnd H p' Hp'. injection H as <-. eapply pools_put; [reflexivity|exact Hp|].
      specialize (Hpl _ _ Hp). destruct p as [q|q]; [discriminate Hp'|]. cbn [pl_stop_ramp] in Hp'.
      destruct (st_stop_ramp q _) as [q'|] eqn:Eq; [|discriminate Hp']. injection Hp' as <-. destruct Hpl as (n & Hn & Hr).
      pose proof (st_reachable_amp _ _ Hr) as Ha.
      apply st_stop_inv in Eq as (rates & am & _ & Hamp & ->).
      rewrite <- W64_pow in HW.
      assert (En : pe_now (pl_env (ex_rates c) (e_now e) q) = e_now e) by (unfold pl_env, rs_pool_env; destruct (st_kind q); reflexivity).
      rewrite En in *. rewrite (st_amp_value n q (e_now e) rates Ha Hn HW) in Hamp. injection Hamp as <-.
      unfold pool_rule, becomes. cbn [call_of]. rewrite N.eqb_refl. split; reflexivity.
  - apply pools_kept; [destruct x; done|].
    destruct (privileged x) eqn:Hp; [|eapply ex_call_params; eauto].
    destruct (is_settings x) eqn:Es; [apply settings_call in H as [(_ & K & _) _]; [now apply params_same|done]|].
    destruct x; try discriminate Hp; try discriminate Es; try discriminate Ex; cbn [ex_call] in H; try (apply quiet_inv in H as [H ->]); call_inv H.
    + now apply params_app with (l := [p']).
    + eapply params_insert; [eassumption|reflexivity|eapply params_remove; eassumption].
    + apply params_same; reflexivity.
Qed.


(** ** Events *)
Lemma w_call_inv w e x w' : w_step w (EvCall e x) = Some w' ->
  exists ps, ex_call (w_ex w) e x = Some (w_ex w', ps) /\ w_now w <= e_now e /\ e_now e < 2 ^ 64 /\ w_now w' = e_now e.
Proof.
  intros H. unfold w_step in H. cbv zeta in H. bnd H u Hu. apply next_time_inv in Hu as [Hn HW]. bnd H u' Hu'. bnd H q Hq. destruct q as [c' ps].
  injection H as <-. destruct (w_queue_ex w c' (w_hold w) (w_flights w) ps (e_now e)) as (-> & -> & _). exists ps. auto.
Qed.
Lemma w_step_governed w ev w' : w_step w ev = Some w' -> call_of ev = None -> governed (w_ex w) (w_ex w').
Proof.
  intros H Hn. apply w_step_happens in H as [_ H]. eapply happens_governed; [exact H|]. intros e x ->. discriminate Hn.
Qed.
Lemma call_of_dec ev : (exists e x, ev = EvCall e x) \/ call_of ev = None.
Proof. destruct ev; eauto. Qed.

(** ** C69: what every setting becomes *)
(** After every event, each setting of the exchange, each registration with the oracles and each pool's fee and amplification is what
    the call that is meant for it says, and unchanged if the event is no such call. *)
Theorem C69_settings w ev w' : w_step w ev = Some w' -> settings_rule ev (ex_cfg (w_ex w)) (ex_cfg (w_ex w')).
Proof.
  intros H. destruct (call_of_dec ev) as [(e & x & ->)|Hn].
  - apply w_call_inv in H as (ps & H & _). eapply rule_call; eauto.
  - destruct (w_step_governed _ _ _ H Hn) as (-> & _). apply rule_none. intros e x ->. discriminate Hn.
Qed.
Print Assumptions C69_settings.

Theorem C69_oracles w ev w' : w_step w ev = Some w' -> oracle_rule ev (ex_rates (w_ex w)) (ex_rates (w_ex w')).
Proof.
  intros H. destruct (call_of_dec ev) as [(e & x & ->)|Hn].
  - apply w_call_inv in H as (ps & H & _). eapply oracle_call; eauto.
  - destruct (w_step_governed _ _ _ H Hn) as (_ & _ & E). apply oracle_none; [exact E|]. intros e a ->. discriminate Hn.
Qed.
Print Assumptions C69_oracles.

Theorem C69_pools w0 w ev w' : w_ok w0 -> w_reach w0 w -> w_step w ev = Some w' -> pools_rule ev (w_now w') (w_ex w) (w_ex w').
Proof.
  intros H0 Hr H. apply (w_reach_ok w0 w) in H0 as [Hwf _]; [|done]. destruct (call_of_dec ev) as [(e & x & ->)|Hn].
  - apply w_call_inv in H as (ps & H & Hle & HW & ->). eapply pools_call; [|exact HW|exact H].
    eapply ex_wf_mono; eauto.
  - destruct (w_step_governed _ _ _ H Hn) as (_ & K & _). apply pools_kept; [now rewrite Hn|done].
Qed.
Print Assumptions C69_pools.

(** ** C68: bounds of fees *)
Lemma call_bounds c e x c' ps : ex_call c e x = Some (c', ps) ->
  cf_admin_fee (ex_cfg c') <= N.max (cf_admin_fee (ex_cfg c)) 8000 /\
  (referrals_bounded (ex_cfg c) -> referrals_bounded (ex_cfg c')).
Proof.
  intros H. destruct (is_settings x) eqn:Es; [|apply ex_call_settings in H as (-> & _); [split; [lia|done]|done]].
  destruct x; try discriminate Es; clear Es; cbn [ex_call] in H; try (apply quiet_inv in H as [H ->]); open_call H.
  all: repeat match type of H with
       | mbind _ _ = Some _ => let y := fresh "y" in let Hy := fresh "Hy" in apply bind_Some in H as (y & Hy & H)
       | (if ?b then _ else _) = Some _ => destruct b
       end; first [injection H as <- _|injection H as <-]; unfold ex_upd; ex_cbn; try (split; [cbn; lia|intros K; exact K]).
  - apply ensure_Some in Hy0. bool_inv. unfold FEE_DIVISOR in *. split; [cbn; lia|]. intros K i f. cbn [cf_referrals cf_set_referrals].
    intros Hf. apply lookup_insert_Some in Hf as [[_ <-]|[_ Hf]]; [lia|eapply K; exact Hf].
  - apply ensure_Some in Hy0. bool_inv. unfold FEE_DIVISOR in *. split; [cbn; lia|]. intros K i f. cbn [cf_referrals cf_set_referrals].
    intros Hf. apply lookup_insert_Some in Hf as [[_ <-]|[_ Hf]]; [lia|eapply K; exact Hf].
  - split; [cbn; lia|]. intros K i f. cbn [cf_referrals cf_set_referrals].
    intros Hf. apply lookup_delete_Some in Hf as [_ Hf]. eapply K; exact Hf.
  - apply ensure_Some in Hy0. bool_inv. unfold MAX_ADMIN_FEE_BPS in *. split; [cbn; lia|intros K; exact K].
Qed.
(** The protocol's part of the fees never exceeds 80 percent, unless the exchange was deployed with more; a registered referral gets more than
    nothing and less than everything of it. *)
Theorem C68_protocol_fee w0 w : w_reach w0 w ->
  cf_admin_fee (ex_cfg (w_ex w)) <= N.max (cf_admin_fee (ex_cfg (w_ex w0))) 8000 /\
  (referrals_bounded (ex_cfg (w_ex w0)) -> referrals_bounded (ex_cfg (w_ex w))).
Proof.
  intros Hr. induction Hr as [|w ev w' _ IH H]; [split; [lia|done]|].
  destruct (call_of_dec ev) as [(e & x & ->)|Hn].
  - apply w_call_inv in H as (ps & H & _). apply call_bounds in H as [A B]. destruct IH as [C D]. split; [lia|auto].
  - destruct (w_step_governed _ _ _ H Hn) as (-> & _). exact IH.
Qed.
Print Assumptions C68_protocol_fee.

(** The fee of every pool is below 100 percent and the amplification of every stable pool between 1 and 10^6. *)
Theorem C68_pool_fees w0 w pid p : w_ok w0 -> w_reach w0 w -> ex_pool (w_ex w) pid = Some p -> pool_bounded p.
Proof.
  intros H0 Hr Hp. apply (w_reach_ok w0 w) in H0 as [[Hwf _] _]; [|done]. rewrite Forall_lookup in Hwf. specialize (Hwf _ _ Hp).
  destruct p as [q|q]; cbn [pl_reachable pool_bounded] in *.
  - apply sp_reachable_wf in Hwf as (_ & _ & _ & Hf & _). exact Hf.
  - destruct Hwf as (n & _ & Hs). pose proof (st_reachable_wf _ _ Hs) as (_ & _ & _ & _ & _ & _ & _ & Hf). split; [exact Hf|].
    apply st_reachable_amp in Hs as (A & B & _). unfold MIN_AMP, MAX_AMP in *. split; [exact A|exact B].
Qed.
Print Assumptions C68_pool_fees.

(** Deployment does not check the protocol's part: it may exceed even 100 percent. *)
Theorem C68_deployed_refuted : exists c, ex_new "ref" "own" "farm" "bur" 9000 2000 = Some c /\ 10000 < cf_admin_fee (ex_cfg c).
Proof.
  destruct (ex_new "ref" "own" "farm" "bur" 9000 2000) as [c|] eqn:E; [|vm_compute in E; discriminate E].
  exists c. split; [reflexivity|]. vm_compute in E. injection E as <-. vm_compute. reflexivity.
Qed.
Print Assumptions C68_deployed_refuted.

(** Settings of the exchange of [w_rich]: the owner appoints a guardian, who freezes a token, registers a referral, changes the fee of pool 1
    and pauses; afterwards the owner dismisses the guardian, and raises the protocol's part of the fees. Its value cannot be 8001. *)
Definition settings_events : list Event :=
  [ EvCall (env 200 "own" 1) (CExtendGuardians ["gu"; "gv"]);
    EvCall (env 201 "gu" 1) (CExtendFrozen ["a"; "z"]);
    EvCall (env 202 "gu" 1) (CInsertReferral "rg" 9999);
    EvCall (env 203 "gu" 1) (CModifyTotalFee 1 77);
    EvCall (env 204 "gu" 1) (CChangeState false);
    EvCall (env 100000000000000 "gu" 1) (CRamp 1 480 300000000000000);
    EvCall (env 100000000000000 "own" 1) (CRemoveGuardians ["gu"]);
    EvCall (env 200000000000000 "gv" 1) (CStopRamp 1);
    EvCall (env 200000000000000 "gv" 1) (CRateAdmin (RegisterRate RStnear "c"));
    EvCall (env 200000000000000 "own" 1) (CModifyAdminFee 8000) ].
Example C68_ex :
  (w ← w_run w_rich settings_events; let k := ex_cfg (w_ex w) in
   p ← ex_pool (w_ex w) 1;
   Some (cf_admin_fee k, cf_referrals k !! "rg", cf_referrals k !! "rf", pl_params p,
         (bool_decide ("gu" ∈ cf_guardians k), bool_decide ("gv" ∈ cf_guardians k), bool_decide ("z" ∈ cf_frozen k)), cf_running k,
         rt_kind <$> rs_rates (ex_rates (w_ex w)) !! "c"))
  = Some (8000, Some 9999, Some 1000, (77, (360, 360, 200000000000000, 200000000000000)), (false, true, true), false, Some RStnear).
Proof. vm_compute. reflexivity. Qed.
Example C68_ex_refused :
  w_step w_rich (EvCall (env 200 "own" 1) (CModifyAdminFee 8001)) = None /\ w_step w_rich (EvCall (env 200 "own" 1) (CInsertReferral "rg" 10000)) = None /\
  w_step w_rich (EvCall (env 200 "own" 1) (CModifyTotalFee 1 10000)) = None.
Proof. vm_compute. split_and!; reflexivity. Qed.
