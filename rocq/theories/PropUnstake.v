(** * C99: liquidity staked in ref-farming can be turned into tokens *)
From stdpp Require Import pretty.
From Verif Require Import Base BaseLemmas SimplePool SimplePoolProofs SpecSimple SimplePoolInv StableMath StablePool
  SpecStable StablePoolProofs StablePoolInv Rates Echo Twap SpecTwap PropTwap Account Pool Exchange SpecExchange AccountProofs PoolFacts
  ExchangeProofs ExchangeInv ExchangeEffect ExchangeFrames SpecWorld WorldProofs SpecSwap SwapProofs SpecHistory HistoryProofs
  TwapInv SpecRecords PropRecords SpecExit ExitProofs PropExit ShadowProofs ExExample SpecStake StakeProofs PropWorld PropIds PropStake.
From Verif Require Farming SpecFarming SpecFarmLive PropFarming PropFarmLive.

(** What a transfer of shares leaves alone *)
Lemma pl_transfer_frame p s r x p' : pl_share_transfer p s r x = Some p' ->
  pl_tokens p' = pl_tokens p /\ balances p' = balances p /\ pl_supply p' = pl_supply p /\ least_left p' = least_left p /\
  (forall y, worth p' y = worth p y) /\ (forall t, pl_exact p t -> pl_exact p' t) /\ one_share p' = one_share p.
Proof.
  destruct p as [q|q]; cbn [pl_share_transfer]; intros H; apply fmap_Some in H as (q' & H & ->).
  - unfold sp_share_transfer in H. bnd H b Hb. bnd H nb Hnb. bnd H bo Hbo. bnd H nbo Hnbo. injection H as <-. repeat split; auto.
  - unfold st_share_transfer in H. bnd H b Hb. bnd H nb Hnb. bnd H bo Hbo. bnd H nbo Hnbo. injection H as <-. repeat split; auto.
Qed.
Lemma transfer_step w e id pid r x w' : mft_pool_of id = Some pid -> w_step w (EvCall e (CMftTransfer id r x)) = Some w' ->
  exists p p', ex_pool (w_ex w) pid = Some p /\ e_caller e <> r /\ pl_share_transfer p (e_caller e) r x = Some p' /\
    w' = mkWorld (ex_put_pool (w_ex w) pid p') (w_hold w) (w_flights w) (w_next w) (e_now e).
Proof.
  intros Hid H. cbn [w_step] in H. cbv zeta in H. bnd H u Hu. bnd H u' Hu'. bnd H z Hz. destruct z as [c' ps]. injection H as <-.
  cbn [ex_call] in Hz. apply quiet_inv in Hz as [Hz ->]. apply ex_mft_transfer_free_inv in Hz as (_ & _ & Hz). apply ex_mft_transfer_inv in Hz as (Hne & _ & Hz).
  rewrite Hid in Hz. destruct Hz as (p & p' & Hp & _ & _ & Ht & ->). exists p, p'. auto.
Qed.

Lemma remove_step w e pid sh mins w' h : w_ok w -> w_step w (EvCall e (CRemoveLiquidity pid sh mins)) = Some w' -> h <> e_caller e -> shares_at (w_ex w') pid h = shares_at (w_ex w) pid h.
Proof.
  intros Hok H Hne. unfold w_step in H. cbv zeta in H. bnd H u Hu. bnd H u' Hu'. bnd H z Hz. destruct z as [c' ps]. injection H as <-.
  destruct (queue_flights w c' (w_hold w) (w_flights w) ps (e_now e)) as (_ & _ & ->).
  cbn [ex_call] in Hz. apply quiet2_inv in Hz as (out & Hz & _). apply ex_remove_liquidity_inv in Hz as (tw & p & p' & acc & acc' & _ & _ & Hp & _ & _ & _ & Hr & _ & _ & ->).
  pose proof (pl_reachable_wf _ _ (ex_wf_pool _ _ _ _ (proj1 Hok) Hp)) as Hwf. apply (pl_remove_spec p no_rates 0) in Hr as (_ & _ & _ & _ & Hr); [|done].
  specialize (Hr h). unfold only in Hr. rewrite (proj2 (String.eqb_neq _ _)) in Hr by auto.
  change (shares_at (ex_put (ex_put_pool (ex_set_twap (w_ex w) tw) pid p') (e_caller e) acc') pid h) with (shares_at (ex_put_pool (ex_set_twap (w_ex w) tw) pid p') pid h).
  rewrite shares_put by eauto. rewrite N.eqb_refl, (shares_pool _ _ _ _ Hp). lia.
Qed.

(** A farmer who stayed registered with the farm, whose account and share entry at the exchange exist, gets any part [x] of the stake
    out: the withdrawal from the farm, the transfer of the shares it causes, the redemption and the withdrawal of any of the tokens all
    succeed, and bring what [x] shares are worth. *)
Theorem C99_exit fa k0 k owner es now ef e a pid p x :
  k_start fa k0 -> k_reach fa k0 k -> w_start (k_w k0) -> records_sound (k_w k0) ->
  SpecFarming.frun (SpecFarming.fw_new owner) es (k_f k) -> SpecFarmLive.stayed a es -> Farming.fs_running (SpecFarming.w_c (k_f k)) = true -> SpecFarmLive.in_time (k_f k) now ->
  let s := seed_of (k_self k) pid in
  SpecFarmLive.sane_farms (SpecFarming.w_c (k_f k)) s -> SpecFarmLive.sane_tokens (k_f k) s ->
  SpecFarmLive.records (SpecFarming.w_c (k_f k)) a + SpecFarmLive.farms_of (SpecFarming.w_c (k_f k)) s < W32 ->
  0 < x <= SpecFarming.stake_of (SpecFarming.w_c (k_f k)) a s ->
  pid < 2 ^ 64 -> ex_pool (w_ex (k_w k)) pid = Some p -> pl_holder p a -> a <> fa ->
  (forall t, t ∈ pl_tokens p -> standard t (k_w k0) (k_w k) /\ ~ frozen (k_w k) t) ->
  ready (k_w k) e a -> e_now e < 2 ^ 32 * 10 ^ 9 -> e_caller ef = fa -> e_attached ef = 1 -> w_now (k_w k) <= e_now ef <= e_now e ->
  room_for (w_ex (k_w k)) a (pl_tokens p) -> N.max (farm_at (w_ex (k_w k)) pid a) (burrow_at (w_ex (k_w k)) pid a) <= shares_at (w_ex (k_w k)) pid a ->
  (is_Some (ex_twap (w_ex (k_w k)) !! pid) -> one_share p < pl_supply p -> leaves_enough p (one_share p)) -> leaves_enough p x ->
  exists k1 k2 k3,
    SpecFarming.fstep (k_f k) (SpecFarming.EvCall now a (SpecFarming.CWithdrawSeed 1 s x)) = Some (k_f k1) /\ k_step fa k k1 /\
    w_step (k_w k1) (EvCall ef (CMftTransfer (share_id (pretty pid)) a x)) = Some (k_w k2) /\ k_step fa k1 k2 /\
    w_step (k_w k2) (EvCall e (CRemoveLiquidity pid x (repeat 0 (length (pl_tokens p))))) = Some (k_w k3) /\ k_step fa k2 k3 /\
    SpecFarming.stake_of (SpecFarming.w_c (k_f k3)) a s = SpecFarming.stake_of (SpecFarming.w_c (k_f k)) a s - x /\
    shares_at (w_ex (k_w k3)) pid fa + x = shares_at (w_ex (k_w k)) pid fa /\ shares_at (w_ex (k_w k3)) pid a = shares_at (w_ex (k_w k)) pid a /\
    (forall t, held_by (w_ex (k_w k3)) a t = held_by (w_ex (k_w k)) a t + beside t (pl_tokens p) (worth p x)) /\
    forall t skip, t ∈ pl_tokens p -> 0 < beside t (pl_tokens p) (worth p x) ->
      exists w4, pays (k_w k3) e (CWithdraw t (beside t (pl_tokens p) (worth p x)) false skip) a t (beside t (pl_tokens p) (worth p x)) w4.
Proof.
  intros Hs Hr Hw0 Hrec0 Hrun Hsty Hon Htm s Hsf Hst Hrc [H0 Hx] Hpid Hp Hh Hfa Htok Hrdy HeW Hef1 Hef2 [Hef3 Hef4] Hroom Hlk Hobs Hle.
  destruct (PropFarmLive.C48_withdrawable owner es (k_f k) now a s x Hrun Hsty Hon Htm Hsf Hst Hrc H0 Hx) as (f1 & Hf1 & Hstk & Hpend).
  set (k1 := mkStakes (k_w k) f1 (k_answers k)).
  assert (S1 : k_step fa k k1) by (apply k_farm with (ev := SpecFarming.EvCall now a (SpecFarming.CWithdrawSeed 1 s x)); [exact I|exact Hf1]).
  assert (R1 : k_reach fa k0 k1) by (econstructor; eauto).
  destruct Hrdy as (Ha & Hy & Hself & [Hn HW] & Hrn).
  destruct (C98_paid fa k0 k1 (SpecFarming.w_next (k_f k)) ef pid p a x) as (w2 & Hw2 & S2 & Hmv); auto.
  { now apply running_intro. }
  { cbn [k1 k_w]. lia. }
  set (k2 := mkStakes w2 (paid_out (k_f k1) (SpecFarming.w_next (k_f k)) (seed_of (k_self k1) pid) a x) (k_answers k1)) in *.
  assert (R2 : k_reach fa k0 k2) by (econstructor; eauto).
  pose proof (C62_share_id pid Hpid) as Hid. change (mft_pool_of (share_id (pretty pid)) = Some pid) in Hid.
  pose proof Hw2 as Hw2'. apply (transfer_step _ _ _ pid) in Hw2' as (q & p' & Hq & _ & Htr & E2); [|done]. cbn [k1 k_w] in Hq, E2. rewrite Hp in Hq. injection Hq as <-.
  destruct (pl_transfer_frame _ _ _ _ _ Htr) as (Et & Eb & Es & El & Ew & Ex & Eo).
  assert (Hp2 : ex_pool (w_ex w2) pid = Some p') by (rewrite E2; cbn [w_ex]; rewrite ex_pool_put by eauto; now rewrite N.eqb_refl).
  assert (Hle' : forall y, leaves_enough p y -> leaves_enough p' y) by (intros y; unfold leaves_enough; now rewrite Eb, Es, El).
  assert (Hfrz : forall t, t ∈ pl_tokens p' -> ~ frozen w2 t) by (intros t Ht; rewrite Et in Ht; rewrite E2; apply Htok; exact Ht).
  assert (Hstd : forall t, t ∈ pl_tokens p' -> standard t (k_w k0) w2).
  { intros t Ht. rewrite Et in Ht. destruct (Htok t Ht) as [[B X] _]. split.
    - apply (w_backed_step _ _ (k_w k) (EvCall ef (CMftTransfer (share_id (pretty pid)) a x))); [exact B|exact I|exact I|exact Hw2].
    - rewrite E2. cbn [w_ex]. unfold exact_token, ex_put_pool, ex_set_pools. cbn [ex_pools]. apply Forall_insert; [exact X|].
      apply Ex. eapply Forall_lookup_1 in X; [exact X|exact Hp]. }
  assert (Hlk2 : farm_at (w_ex w2) pid a = farm_at (w_ex (k_w k)) pid a /\ burrow_at (w_ex w2) pid a = burrow_at (w_ex (k_w k)) pid a) by (rewrite E2; auto).
  assert (Hsh2 : shares_at (w_ex w2) pid a = shares_at (w_ex (k_w k)) pid a + x /\ shares_at (w_ex w2) pid fa + x = shares_at (w_ex (k_w k)) pid fa).
  { destruct Hmv as (Hmv & _). pose proof (Hmv pid a) as A. pose proof (Hmv pid fa) as B. rewrite N.eqb_refl in A, B. unfold only in A, B.
    rewrite String.eqb_refl in A, B. rewrite (proj2 (String.eqb_neq a fa)) in B by done. rewrite (proj2 (String.eqb_neq fa a)) in A by auto. cbn [k1 k_w] in A, B. lia. }
  assert (Hrch : w_reach (k_w k0) w2).
  { destruct (C98_refines fa k0 k2 Hs R2) as [W _]. cbn [k2 k_w] in W. clear -W. remember (k_w k0) as w0. induction W; [constructor|econstructor; eauto]. }
  assert (Hrdy2 : ready w2 e a) by (rewrite E2; unfold ready; cbn [w_ex w_now]; split; [done|]; split; [done|]; split; [exact Hself|]; split; [lia|exact Hrn]).
  assert (Hroom2 : room_for (w_ex w2) a (pl_tokens p')) by (rewrite Et, E2; exact Hroom).
  assert (Hfree : 0 < x <= free_shares (w_ex w2) pid a) by (unfold free_shares; destruct Hlk2 as [-> ->]; lia).
  assert (Hobs2 : is_Some (ex_twap (w_ex w2) !! pid) -> one_share p' < pl_supply p' -> leaves_enough p' (one_share p')).
  { rewrite Eo, Es. intros Ho Hlt. apply Hle', Hobs; [|done]. rewrite E2 in Ho. exact Ho. }
  destruct (C65_redeem (k_w k0) w2 e a pid p' x) as (w3 & Hw3 & Hhold & Hfl & Hsh3 & Hheld); auto.
  rewrite Et in Hw3.
  set (k3 := mkStakes w3 (k_f k2) (answer_used (k_answers k2) (EvCall e (CRemoveLiquidity pid x (repeat 0 (length (pl_tokens p))))))).
  assert (S3 : k_step fa k2 k3) by (apply k_exchange; [cbn [exchange_event]; now rewrite Ha|exact Hw3]).
  exists k1, k2, k3. split; [exact Hf1|]. split; [exact S1|]. split; [exact Hw2|]. split; [exact S2|]. split; [exact Hw3|]. split; [exact S3|]. split; [exact Hstk|].
  destruct Hsh2 as [Hsa Hsf2].
  assert (Hfa3 : shares_at (w_ex w3) pid fa = shares_at (w_ex w2) pid fa).
  { eapply remove_step; [|exact Hw3|rewrite Ha; auto]. apply (ki_ok fa k2), (k_inv_reach fa k0); auto. }
  split; [cbn [k3 k_w]; lia|]. split; [cbn [k3 k_w]; lia|].
  assert (Hhd : forall t, held_by (w_ex w2) a t = held_by (w_ex (k_w k)) a t) by (intros t; rewrite E2; reflexivity).
  split; [intros t; cbn [k3 k_w]; now rewrite Hheld, Et, Ew, Hhd|].
  intros t skip Ht Hpos. rewrite <- Et, <- Ew in Hpos.
  destruct (C65_exit (k_w k0) w2 e a pid p' x t skip) as (w3' & w4 & Hw3' & Hpay & _); auto; [now rewrite Et|].
  rewrite Et in Hw3'. rewrite Hw3 in Hw3'. injection Hw3' as <-. exists w4. rewrite Et, Ew in Hpay. exact Hpay.
Qed.
Print Assumptions C99_exit.

(** ** Example *)
Lemma frun_snoc w es w1 ev w2 : SpecFarming.frun w es w1 -> SpecFarming.fstep w1 ev = Some w2 -> SpecFarming.frun w (es ++ [ev]) w2.
Proof. intros H. revert w2. induction H as [w|w e w1 es w3 Hs _ IH]; intros w2 H2; cbn [app]; econstructor; eauto. constructor. Qed.
Definition plain_tag (g : KTag) : bool :=
  match g with
  | KE ev => plain ev
  | KF (SpecFarming.EvCall _ _ (SpecFarming.CStorageUnregister _)) => false
  | _ => true
  end.
Definition has_past (o a t : AccountId) (w0 : World) (k : Stakes) : Prop :=
  w_backed t w0 (k_w k) /\ exists es, SpecFarming.frun (SpecFarming.fw_new o) es (k_f k) /\ SpecFarmLive.stayed a es.
Lemma stayed_snoc a es ev : SpecFarmLive.stayed a es -> match ev with SpecFarming.EvCall _ b (SpecFarming.CStorageUnregister _) => b <> a | _ => True end -> SpecFarmLive.stayed a (es ++ [ev]).
Proof. intros H1 H2 e He. apply elem_of_app in He as [He|He]; [now apply H1|]. apply elem_of_list_singleton in He as ->. exact H2. Qed.
Lemma k_exec_past o a t w0 fa k g k' : plain_tag g = true -> has_past o a t w0 k -> k_exec fa k g = Some k' -> has_past o a t w0 k'.
Proof.
  intros Hg (B & es & Hrun & Hst) H. destruct g; cbn [k_exec] in H.
  - bnd H u Hu. bnd H w Hw. injection H as <-. split; [|exists es; auto]. cbn [k_w]. eapply w_backed_step; [exact B| | |exact Hw]; destruct ev; try done; destruct x; done.
  - bnd H u Hu. bnd H f Hf. injection H as <-. split; [exact B|]. exists (es ++ [ev]). split; [eapply frun_snoc; eauto|]. apply stayed_snoc; [done|]. destruct ev; try done. now destruct x.
  - bnd H n Hn. bnd H u Hu. bnd H pid Hp. bnd H f Hf. injection H as <-. split; [exact B|]. eexists (es ++ [_]). split; [eapply frun_snoc; eauto|]. now apply stayed_snoc.
  - bnd H n Hn. bnd H u Hu. injection H as <-. split; [exact B|]. exists es. auto.
  - bnd H u Hu. bnd H p Hp. destruct p as [|s b x [|]]; try discriminate H. bnd H u' Hu'. apply ensure_Some, String.eqb_eq in Hu'. subst s. bnd H w Hw. injection H as <-.
    split; [apply (w_backed_step _ _ (k_w k) (EvCall e (CMftTransfer (share_id t0) b x))); [exact B|exact I|exact I|exact Hw]|].
    exists (es ++ [SpecFarming.EvRemote i true]). split; [eapply frun_snoc; [exact Hrun|]|now apply stayed_snoc]. apply paid_out_step; [exists o, es; done|exact Hp].
Qed.
Lemma k_run_past o a t w0 fa l : forall k k', forallb plain_tag l = true -> has_past o a t w0 k -> k_run fa k l = Some k' -> has_past o a t w0 k'.
Proof.
  induction l as [|g l IH]; intros k k' Hp Hr H; cbn [k_run forallb] in H, Hp; [now injection H as <-|].
  apply andb_true_iff in Hp as [Hp1 Hp]. apply bind_Some in H as (k1 & H1 & H). eapply IH; [exact Hp| |exact H]. eapply k_exec_past; eauto.
Qed.
(** alice, who staked 500 shares before, takes 200 of them out. *)
Definition unstake_events : list KTag := stake_events ++ [ KA 6 (PropFarming.sec 120); KR 7; KE (EvMftResolve 6 (env 112 "ref" 0) (Some 0)) ].
Definition k_staked : Stakes := default stake_start (k_run "ff" stake_start unstake_events).
Definition staked_pool : Pool := default no_pool (ex_pool (w_ex (k_w k_staked)) 0).
Example C99_ex : exists k3 : Stakes,
  k_reach "ff" stake_start k_staked /\ SpecFarming.stake_of (SpecFarming.w_c (k_f k_staked)) "al" (seed_of "ref" 0) = 500 /\
  k_reach "ff" k_staked k3 /\ SpecFarming.stake_of (SpecFarming.w_c (k_f k3)) "al" (seed_of "ref" 0) = 300 /\
  shares_at (w_ex (k_w k3)) 0 "ff" + 200 = shares_at (w_ex (k_w k_staked)) 0 "ff".
Proof.
  assert (H1 : k_run "ff" stake_start unstake_events = Some k_staked) by (apply run_default; vm_compute; reflexivity).
  assert (Hr : k_reach "ff" stake_start k_staked) by (eapply k_run_reach; [constructor|exact H1]).
  assert (Hpast : forall t, has_past "owner" "al" t w_fresh k_staked).
  { intros t. eapply (k_run_past _ _ _ _ "ff" unstake_events stake_start); [reflexivity| |exact H1]. split; [constructor|]. exists farm_events.
    split; [|intros e He; repeat (apply elem_of_cons in He as [->|He]; [done|]); now apply elem_of_nil in He].
    apply PropFarming.frun_exec_run. cbn [stake_start k_f]. unfold PropFarming.ex_world. apply run_default. vm_compute. reflexivity. }
  assert (Hp : ex_pool (w_ex (k_w k_staked)) 0 = Some staked_pool) by (apply run_default; vm_compute; reflexivity).
  assert (Hfz : cf_frozen (ex_cfg (w_ex (k_w k_staked))) = ∅) by (vm_compute; reflexivity).
  assert (Hs500 : SpecFarming.stake_of (SpecFarming.w_c (k_f k_staked)) "al" (seed_of "ref" 0) = 500) by (vm_compute; reflexivity).
  destruct (Hpast ""%string) as (_ & es & Hrun & Hst).
  destruct (C99_exit "ff" stake_start k_staked "owner" es (PropFarming.sec 130) (env 113 "ff" 1) (env 114 "al" 1) "al" 0 staked_pool 200) as (k1 & k2 & k3 & _ & S1 & _ & S2 & _ & S3 & E1 & E2 & _); auto.
  - apply stake_start_ok.
  - apply w_fresh_start.
  - apply fresh_records.
  - vm_compute. split; [discriminate|reflexivity].
  - apply PropFarmLive.sane_farms_ok; vm_compute; reflexivity.
  - apply PropFarmLive.sane_tokens_ok; vm_compute; reflexivity.
  - vm_compute; reflexivity.
  - vm_compute. split; [reflexivity|discriminate].
  - vm_compute; reflexivity.
  - vm_compute. eexists; reflexivity.
  - intros t _. split; [split; [apply Hpast|apply simple_exact; vm_compute; reflexivity]|]. unfold frozen. rewrite Hfz. apply not_elem_of_empty.
  - split; [reflexivity|]. split; [reflexivity|]. split; [vm_compute; discriminate|]. split; [vm_compute; split; [discriminate|reflexivity]|vm_compute; reflexivity].
  - vm_compute; reflexivity.
  - vm_compute. split; discriminate.
  - exists (default ac_new (ex_account (w_ex (k_w k_staked)) "al")). split; [apply (run_default ac_new (ex_account (w_ex (k_w k_staked)) "al")); vm_compute; reflexivity|vm_compute; discriminate].
  - vm_compute. discriminate.
  - intros _ _. apply simple_leaves. vm_compute. done.
  - apply simple_leaves. vm_compute. done.
  - exists k3. split; [exact Hr|]. split; [exact Hs500|]. split; [eapply k_reach_step; [|exact S3]; eapply k_reach_step; [|exact S2]; eapply k_reach_step; [constructor|exact S1]|].
    change (k_self k_staked) with "ref"%string in E1. split; [rewrite E1, Hs500; reflexivity|exact E2].
Qed.
