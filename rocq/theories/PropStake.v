(** * C98: exchange and ref-farming agree on the shares that are staked *)
From stdpp Require Import pretty.
From Verif Require Import Base BaseLemmas SimplePool SimplePoolProofs SpecSimple SimplePoolInv StableMath StablePool
  SpecStable StablePoolProofs StablePoolInv Rates Echo Twap Account Pool Exchange SpecExchange AccountProofs PoolFacts
  ExchangeProofs ExchangeInv ExchangeEffect ExchangeFrames SpecWorld WorldProofs SpecSwap SwapProofs SpecHistory HistoryProofs SpecShadow ShadowProofs
  SpecAccess AccessProofs ExExample SpecStake StakeProofs PropWorld PropShares PropOwn PropIds.
From Verif Require Farming SpecFarming FarmingInv FarmingWorld PropFarming.

(** ** Liveness of a transfer of shares *)
Lemma entry_transfer (m : gmap AccountId N) s r x S : s <> r -> shares_sum m = S -> S < W128 -> 0 < x -> x <= shares_get m s -> is_Some (m !! r) ->
  exists b bo, m !! s = Some b /\ csub b x = Some (b - x) /\ <[s := b - x]> m !! r = Some bo /\ cadd W128 bo x = Some (bo + x).
Proof.
  intros Hne HS HW H0 Hx [bo Hr]. pose proof (shares_get_two_le m s r Hne) as H. unfold shares_get in *. rewrite Hr in H. destruct (m !! s) as [b|] eqn:Hs; cbn in *; [|lia].
  exists b, bo. split; [done|]. split; [apply csub_intro; lia|]. split; [now rewrite lookup_insert_ne|]. apply cadd_intro. lia.
Qed.
Lemma pl_transfer_live p s r x : pl_wf p -> s <> r -> 0 < x -> x <= pl_share_of p s -> pl_holder p r -> is_Some (pl_share_transfer p s r x).
Proof.
  destruct p as [q|q]; cbn [pl_wf pl_share_of pl_holder pl_share_transfer]; intros Hwf Hne H0 Hx Hr.
  - destruct Hwf as (_ & _ & _ & _ & HS & E). destruct (entry_transfer _ s r x _ Hne E HS H0 Hx Hr) as (b & bo & E1 & E2 & E3 & E4).
    unfold sp_share_transfer. rewrite E1. cbn [mbind option_bind]. rewrite E2. cbn [mbind option_bind]. cbv zeta. rewrite E3. cbn [mbind option_bind]. rewrite E4. cbn. eauto.
  - destruct Hwf as (_ & _ & _ & _ & HS & E & _). destruct (entry_transfer _ s r x _ Hne E HS H0 Hx Hr) as (b & bo & E1 & E2 & E3 & E4).
    unfold st_share_transfer. rewrite E1. cbn [mbind option_bind]. rewrite E2. cbn [mbind option_bind]. cbv zeta. rewrite E3. cbn [mbind option_bind]. rewrite E4. cbn. eauto.
Qed.
(** What may be transferred is what nobody has staked in turn. *)
Lemma mft_transfer_live now c id pid p s r x :
  ex_wf now c -> mft_pool_of id = Some pid -> ex_pool c pid = Some p -> s <> r -> 0 < x ->
  x + N.max (farm_at c pid s) (burrow_at c pid s) <= shares_at c pid s -> pl_holder p r -> is_Some (ex_mft_transfer c id s r (Some x)).
Proof.
  intros Hwf Hid Hp Hne H0 Hx Hr. pose proof (pl_reachable_wf _ _ (ex_wf_pool _ _ _ _ Hwf Hp)) as Hpw.
  rewrite (shares_pool _ _ _ _ Hp) in Hx. unfold ex_mft_transfer. rewrite ensure_intro by now apply negb_true_iff, String.eqb_neq. cbn [mbind option_bind].
  rewrite Hid, Hp. cbn [mbind option_bind].
  destruct (pl_transfer_live p s r x Hpw Hne H0) as [p' Ht]; [lia|done|].
  assert (E : exists av, match ex_account c s with
                   | Some acc => match ac_shadow acc !! pid with Some r => sh_free r (pl_share_balance p s) | None => Some (pl_share_balance p s) end
                   | None => Some (pl_share_balance p s) end = Some av /\ x <= av).
  { change (pl_share_balance p s) with (pl_share_of p s). unfold farm_at, burrow_at, shadow_at in Hx. destruct (ex_account c s) as [acc|]; [|exists (pl_share_of p s); split; [done|lia]].
    destruct (ac_shadow acc !! pid) as [h|]; [|exists (pl_share_of p s); split; [done|lia]]. unfold sh_free. cbn in Hx.
    rewrite csub_intro by lia. eexists. split; [reflexivity|lia]. }
  destruct E as (av & E & Hav). cbv zeta. rewrite E. cbn [mbind option_bind default from_option Datatypes.id].
  rewrite (ensure_intro (0 <? x)) by now apply N.ltb_lt. cbn [mbind option_bind]. rewrite (ensure_intro (x <=? av)) by now apply N.leb_le. cbn [mbind option_bind].
  rewrite Ht. cbn. eauto.
Qed.

(** ** The joint system consists of genuine executions of both contracts *)
Inductive w_steps (w : World) : World -> Prop :=
| w_steps_nil : w_steps w w
| w_steps_snoc w1 w2 ev : w_steps w w1 -> w_step w1 ev = Some w2 -> w_steps w w2.
Theorem C98_refines fa k0 k : k_start fa k0 -> k_reach fa k0 k -> w_steps (k_w k0) (k_w k) /\ SpecFarming.freachable (k_f k).
Proof.
  intros Hs H. split; [|apply (ki_farm fa), (k_inv_reach fa k0); auto]. induction H as [|k k' Hr IH H]; [constructor|].
  destruct H; cbn [k_w]; auto; econstructor; eauto.
Qed.
Print Assumptions C98_refines.

(** ** The farm's stakes are there *)
(** Everything the farm records as staked in pool [pid], everything being withdrawn and everything sent and not yet
    accepted is in the farm's balance of shares at the exchange. *)
Theorem C98_backed fa k0 k pid :
  k_start fa k0 -> k_reach fa k0 k ->
  SpecFarming.seed_total (SpecFarming.w_c (k_f k)) (seed_of (k_self k) pid) =
    map_fold (fun a r acc => Farming.mget (Farming.fr_seeds r) (seed_of (k_self k) pid) + acc) 0 (Farming.fs_farmers (SpecFarming.w_c (k_f k))) /\
  SpecFarming.seed_total (SpecFarming.w_c (k_f k)) (seed_of (k_self k) pid) + SpecFarming.inflight (k_f k) (seed_of (k_self k) pid) + on_the_way fa k pid
    <= shares_at (w_ex (k_w k)) pid fa.
Proof.
  intros Hs H. apply (k_inv_reach fa) in H; [|done]. destruct (PropFarming.C44_seed_accounting (k_f k) (seed_of (k_self k) pid) (ki_farm _ _ H)) as [A B].
  split; [exact A|]. pose proof (ki_hold _ _ H pid) as Hh. unfold k_hold in Hh. lia.
Qed.
Print Assumptions C98_backed.
(** No seed is recorded under another spelling of a pool id. *)
Theorem C98_one_seed fa k0 k t :
  k_start fa k0 -> k_reach fa k0 k -> (forall pid : N, t <> pretty pid) ->
  SpecFarming.seed_total (SpecFarming.w_c (k_f k)) (mft_seed (k_self k) t) = 0.
Proof.
  intros Hs H Ht. apply (k_inv_reach fa) in H; [|done]. destruct (PropFarming.C44_seed_accounting (k_f k) (mft_seed (k_self k) t) (ki_farm _ _ H)) as [_ B].
  pose proof (ki_none _ _ H t Ht) as Hn. unfold k_hold in Hn. lia.
Qed.
Print Assumptions C98_one_seed.

(** ** Withdrawals are executed *)
(** The exchange executes the transfer of a withdrawn stake whenever it runs and the receiver is registered with the pool;
    the shares of nobody but these two change. *)
Theorem C98_paid fa k0 k i e pid p a x :
  k_start fa k0 -> k_reach fa k0 k ->
  SpecFarming.w_pend (k_f k) !! i = Some (SpecFarming.PSeed (seed_of (k_self k) pid) a x None) ->
  0 < x -> a <> fa -> pid < 2 ^ 64 -> ex_pool (w_ex (k_w k)) pid = Some p -> pl_holder p a -> running (w_ex (k_w k)) = Some tt ->
  e_caller e = fa -> e_attached e = 1 -> w_now (k_w k) <= e_now e < 2 ^ 64 ->
  exists w', w_step (k_w k) (EvCall e (CMftTransfer (share_id (pretty pid)) a x)) = Some w' /\
    k_step fa k (mkStakes w' (paid_out (k_f k) i (seed_of (k_self k) pid) a x) (k_answers k)) /\
    shares_moved (w_ex (k_w k)) (w_ex w') pid fa a x.
Proof.
  intros Hs H Hpd H0 Ha Hpid Hp Hh Hrun Hca Hat [Ht1 Ht2]. apply (k_inv_reach fa) in H as Hi; [|done].
  pose proof (C62_share_id pid Hpid) as Hid. change (mft_pool_of (share_id (pretty pid)) = Some pid) in Hid.
  pose proof (ki_ok _ _ Hi) as Hok. assert (Hwf : ex_wf (e_now e) (w_ex (k_w k))) by (destruct Hok; eapply ex_wf_mono; eauto).
  pose proof (pending_hold _ _ _ (ki_farm _ _ Hi) Hpd eq_refl) as Hd. cbn [SpecFarming.pend_amount SpecFarming.pend_asset] in Hd.
  pose proof (ki_hold _ _ Hi pid) as Hh'. unfold k_hold in Hh'. destruct (ki_stakes _ _ Hi pid) as [E1 E2].
  destruct (mft_transfer_live (e_now e) (w_ex (k_w k)) (share_id (pretty pid)) pid p fa a x Hwf Hid Hp) as [[c' y] Hm]; auto.
  { rewrite E1, E2. lia. }
  assert (Hc : ex_call (w_ex (k_w k)) e (CMftTransfer (share_id (pretty pid)) a x) = Some (c', [])).
  { cbn [ex_call]. unfold ex_mft_transfer_call_free, one_yocto. rewrite Hat. rewrite ensure_intro by reflexivity. cbn [mbind option_bind]. rewrite Hrun. cbn [mbind option_bind].
    rewrite Hca, Hm. reflexivity. }
  assert (Hw : w_step (k_w k) (EvCall e (CMftTransfer (share_id (pretty pid)) a x)) = Some (mkWorld c' (w_hold (k_w k)) (w_flights (k_w k)) (w_next (k_w k)) (e_now e))).
  { cbn [w_step]. cbv zeta. unfold next_time. rewrite (ensure_intro (_ && _)) by (apply andb_true_intro; split; [now apply N.leb_le|now apply N.ltb_lt]). cbn [mbind option_bind].
    rewrite ensure_intro by (apply negb_true_iff, String.eqb_neq; rewrite Hca; apply (ki_self _ _ Hi)). cbn [mbind option_bind]. rewrite Hc. reflexivity. }
  eexists. split; [exact Hw|]. split; [eapply k_pay; eauto|].
  apply C32_transfer in Hc as (_ & Hmv & _); [|done]. unfold mft_moved in Hmv. rewrite Hid, Hca in Hmv. exact Hmv.
Qed.
Print Assumptions C98_paid.
Lemma canonical_or_not t : (exists pid : N, t = pretty pid) \/ forall pid : N, t <> pretty pid.
Proof.
  destruct (decimal_from 0 t) as [n|] eqn:E.
  - destruct (decide (t = pretty n)) as [->|Hn]; [eauto|]. right. intros pid ->. rewrite decimal_pretty in E. injection E as <-. done.
  - right. intros pid ->. rewrite decimal_pretty in E. discriminate E.
Qed.
(** Whatever it executes for the farm, it moves exactly what the farm has taken off the stake. *)
Theorem C98_pays fa k0 k i e t a x w' :
  k_start fa k0 -> k_reach fa k0 k -> N.of_nat (length (ex_pools (w_ex (k_w k)))) <= 2 ^ 64 ->
  SpecFarming.w_pend (k_f k) !! i = Some (SpecFarming.PSeed (mft_seed (k_self k) t) a x None) -> 0 < x -> e_caller e = fa ->
  w_step (k_w k) (EvCall e (CMftTransfer (share_id t) a x)) = Some w' ->
  exists pid : N, t = pretty pid /\ shares_moved (w_ex (k_w k)) (w_ex w') pid fa a x.
Proof.
  intros Hs H Hlen Hpd H0 Hca Hw. apply (k_inv_reach fa) in H as Hi; [|done].
  pose proof (pending_hold _ _ _ (ki_farm _ _ Hi) Hpd eq_refl) as Hd. cbn [SpecFarming.pend_amount SpecFarming.pend_asset] in Hd.
  pose proof (ki_ok _ _ Hi) as Hok. unfold w_step in Hw. cbv zeta in Hw. bnd Hw u Hu. apply next_time_inv in Hu as [Hn HW]. bnd Hw u' Hu'. bnd Hw z Hz. destruct z as [c' ps]. injection Hw as <-.
  destruct (queue_flights (k_w k) c' (w_hold (k_w k)) (w_flights (k_w k)) ps (e_now e)) as (_ & _ & ->).
  assert (Hwf : ex_wf (e_now e) (w_ex (k_w k))) by (destruct Hok; eapply ex_wf_mono; eauto).
  pose proof (ki_none _ _ Hi t) as Hnn. unfold k_hold in Hnn.
  destruct (canonical_or_not t) as [(pid & ->)|Hno]; [|specialize (Hnn Hno); lia].
  pose proof (ki_hold _ _ Hi pid) as Hh. unfold k_hold, seed_of in Hh.
  assert (Hpid : pid < 2 ^ 64).
  { destruct (ex_pool (w_ex (k_w k)) pid) as [p|] eqn:Ep; [|unfold shares_at in Hh; rewrite Ep in Hh; lia].
    unfold ex_pool in Ep. apply lookup_lt_Some in Ep. lia. }
  exists pid. split; [done|]. apply C32_transfer in Hz as (_ & Hmv & _); [|done]. unfold mft_moved in Hmv. rewrite Hca in Hmv.
  pose proof (C62_share_id pid Hpid) as Hid. change (mft_pool_of (share_id (pretty pid)) = Some pid) in Hid. rewrite Hid in Hmv. exact Hmv.
Qed.
Print Assumptions C98_pays.

(** ** Staking *)
(** What the farm accepts is added to the stake of the sender and to the total of the seed; nothing changes at the exchange,
    neither then nor when the transfer is resolved. *)
Theorem C98_accepted fa k0 k id n pid now f' :
  k_start fa k0 -> k_reach fa k0 k -> notices (k_w k) !! id = Some n -> nt_to n = fa -> k_answers k !! id = None -> mft_pool_of (nt_id n) = Some pid ->
  SpecFarming.fstep (k_f k) (SpecFarming.EvToken now (seed_of (k_self k) pid) (nt_from n) (nt_amount n) None) = Some f' ->
  let s := seed_of (k_self k) pid in
  SpecFarming.stake_of (SpecFarming.w_c f') (nt_from n) s = SpecFarming.stake_of (SpecFarming.w_c (k_f k)) (nt_from n) s + nt_amount n /\
  SpecFarming.seed_total (SpecFarming.w_c f') s = SpecFarming.seed_total (SpecFarming.w_c (k_f k)) s + nt_amount n /\
  (forall b u, (b, u) <> (nt_from n, s) -> SpecFarming.stake_of (SpecFarming.w_c f') b u = SpecFarming.stake_of (SpecFarming.w_c (k_f k)) b u).
Proof.
  intros Hs H _ _ _ _ Hf. cbv zeta. apply (k_inv_reach fa) in H as Hi; [|done]. pose proof (ki_farm _ _ Hi) as Hfr.
  set (s := seed_of (k_self k) pid) in *. set (a := nt_from n) in *. set (x := nt_amount n) in *. clearbody s a x.
  cbn [SpecFarming.fstep] in Hf. bnd Hf u Hu. bnd Hf c2 Hc2. injection Hf as <-. cbn [SpecFarming.w_c].
  unfold SpecFarming.w_tick in Hu. apply ensure_Some, andb_true_iff in Hu as [Hu _]. apply N.leb_le in Hu.
  unfold Farming.ft_on_transfer in Hc2. bnd Hc2 v Hv. bnd Hc2 sd Hsd. bnd Hc2 v' Hv'. bnd Hc2 c1 Hc1. bnd Hc2 v'' Hv''. injection Hc2 as <-.
  unfold Farming.seed_deposit in Hc1. bnd Hc1 c3 Hc3. apply FarmingWorld.winv_reachable in Hfr as (Hinv & _). apply (FarmingInv.finv_mono _ now) in Hinv; [|done].
  destruct (FarmingInv.finv_claim_by_seed _ _ _ _ _ Hinv Hc3) as (_ & _ & (_ & Esd & _ & _ & _ & _ & Eo & _ & Er & _) & _ & _).
  rewrite Esd, Hsd in Hc1. cbn [mbind option_bind] in Hc1. bnd Hc1 z Hz. apply cadd_Some in Hz as [-> _]. bnd Hc1 r Hr. cbn [Farming.fs_set_seeds Farming.fs_farmers] in Hr. bnd Hc1 r' Hr'. injection Hc1 as <-.
  unfold Farming.claim_by_seed in Hc3. bnd Hc3 r0 Hr0. destruct (Er _ Hr0) as (r1 & E1 & E2 & _). rewrite Hr in E1. injection E1 as <-. clear Hc3.
  assert (E3 : Farming.mget (Farming.fr_seeds r') s = Farming.mget (Farming.fr_seeds r0) s + x /\ forall u, u <> s -> Farming.mget (Farming.fr_seeds r') u = Farming.mget (Farming.fr_seeds r0) u).
  { unfold Farming.fr_add_seed in Hr'. rewrite E2 in Hr'. destruct (N.ltb_spec 0 x).
    - bnd Hr' z Hz. apply cadd_Some in Hz as [-> _]. injection Hr' as <-. cbn [Farming.fr_set_seeds Farming.fr_seeds]. unfold Farming.mget. split; [rewrite lookup_insert; apply N.add_comm|].
      intros w Hw. rewrite lookup_insert_ne by auto. reflexivity.
    - injection Hr' as <-. rewrite E2. split; [lia|done]. }
  destruct E3 as [E3 E4]. unfold SpecFarming.stake_of, SpecFarming.seed_total. cbn [Farming.fs_set_farmers Farming.fs_farmers Farming.fs_seeds Farming.fs_set_seeds].
  split; [|split].
  - rewrite lookup_insert, Hr0. exact E3.
  - rewrite lookup_insert, Hsd. reflexivity.
  - intros b w Hb. destruct (decide (a = b)) as [<-|Hab].
    + rewrite lookup_insert, Hr0. apply E4. congruence.
    + rewrite lookup_insert_ne, Eo by auto. reflexivity.
Qed.
Print Assumptions C98_accepted.
Theorem C98_kept fa k0 k id e ret n w' :
  k_start fa k0 -> k_reach fa k0 k -> notices (k_w k) !! id = Some n -> nt_to n = fa -> k_answers k !! id = Some (Some 0) ->
  exchange_event fa k (EvMftResolve id e ret) -> w_step (k_w k) (EvMftResolve id e ret) = Some w' -> ret = Some 0 /\ w_ex w' = w_ex (k_w k).
Proof.
  intros Hs H Hn Hto Ha Hev Hw. apply (k_inv_reach fa) in H as Hi; [|done]. pose proof (Hev n Hn Hto) as E. rewrite Ha in E. injection E as <-.
  split; [done|]. apply w_step_notices in Hw as (n' & Hn' & _ & ->); [|apply (ki_ok _ _ Hi)]. rewrite Hn in Hn'. injection Hn' as <-.
  unfold ex_mft_resolve. rewrite N.min_0_r. reflexivity.
Qed.
Print Assumptions C98_kept.
(** What the farm refuses goes back to the sender, all of it and from the farm's shares, if the sender is still registered with the
    exchange and with the pool. *)
Theorem C98_returned fa k0 k id e n pid p acc ret w' :
  k_start fa k0 -> k_reach fa k0 k -> notices (k_w k) !! id = Some n -> nt_to n = fa -> nt_from n <> fa -> 0 < nt_amount n ->
  mft_pool_of (nt_id n) = Some pid -> k_answers k !! id = Some None ->
  ex_pool (w_ex (k_w k)) pid = Some p -> pl_holder p (nt_from n) -> ex_account (w_ex (k_w k)) (nt_from n) = Some acc ->
  exchange_event fa k (EvMftResolve id e ret) -> w_step (k_w k) (EvMftResolve id e ret) = Some w' ->
  shares_moved (w_ex (k_w k)) (w_ex w') pid fa (nt_from n) (nt_amount n).
Proof.
  intros Hs H Hn Hto Hfr H0 Hp Ha Hpl Hh Hacc Hev Hw. apply (k_inv_reach fa) in H as Hi; [|done]. pose proof (Hev n Hn Hto) as E. rewrite Ha in E. injection E as <-.
  pose proof (ki_ok _ _ Hi) as Hok. apply w_step_notices in Hw as (n' & Hn' & _ & ->); [|done]. rewrite Hn in Hn'. injection Hn' as <-.
  assert (Hx : nt_amount n <= shares_at (w_ex (k_w k)) pid fa).
  { pose proof (ki_hold _ _ Hi pid) as Hk. unfold on_the_way in Hk. pose proof (msum_lookup_le (fun j m => unstaked fa pid (k_answers k !! j) m) (notices (k_w k)) id) as Hl. rewrite Hn in Hl. cbn [contrib] in Hl.
    unfold unstaked in Hl at 1. rewrite Hto, String.eqb_refl, Hp, Ha, bool_decide_eq_true_2 in Hl by done. cbn [andb] in Hl. lia. }
  destruct (ki_stakes _ _ Hi pid) as [E1 E2].
  destruct (mft_transfer_live (w_now (k_w k)) (w_ex (k_w k)) (nt_id n) pid p fa (nt_from n) (nt_amount n) (proj1 Hok) Hp Hpl) as [[c' y] Hm]; auto; [rewrite E1, E2; lia|].
  assert (Hr : ex_mft_resolve (w_ex (k_w k)) (nt_id n) (nt_from n) (nt_to n) (nt_amount n) None = Some c').
  { unfold ex_mft_resolve. cbv zeta. rewrite (proj2 (N.ltb_lt _ _) H0). unfold ex_mft_balance. rewrite Hp, Hpl. cbn [mbind option_bind].
    rewrite (shares_pool _ _ _ _ Hpl) in Hx. change (pl_share_balance p (nt_to n)) with (pl_share_of p (nt_to n)). rewrite Hto. rewrite (proj2 (N.ltb_lt 0 _)) by lia.
    unfold ex_account in Hacc. destruct (ex_accounts (w_ex (k_w k)) !! nt_from n); [|discriminate Hacc]. rewrite N.min_r by lia. rewrite Hm. reflexivity. }
  rewrite Hr. cbn [default from_option Datatypes.id].
  apply (mft_transfer_moved (w_now (k_w k))) in Hm as (_ & Hy & Hm & _); [|apply Hok]. rewrite (Hy _ eq_refl) in Hm. unfold mft_moved in Hm. now rewrite Hp in Hm.
Qed.
Print Assumptions C98_returned.

(** ** Example *)
Inductive KTag := KE (ev : Event) | KF (ev : SpecFarming.fevent) | KA (id now : N) | KR (id : N) | KP (i : nat) (e : Env) (t : string).
Definition k_exec (fa : AccountId) (k : Stakes) (g : KTag) : option Stakes :=
  match g with
  | KE ev =>
      _ ← ensure (match ev with
                  | EvCall e _ => negb (String.eqb (e_caller e) fa)
                  | EvMftResolve id _ ret => bool_decide (k_answers k !! id = Some ret)
                  | _ => true end);
      w ← w_step (k_w k) ev; Some (mkStakes w (k_f k) (answer_used (k_answers k) ev))
  | KF ev =>
      _ ← ensure (match ev with SpecFarming.EvCall _ _ _ | SpecFarming.EvCallback _ _ => true | _ => false end);
      f ← SpecFarming.fstep (k_f k) ev; Some (mkStakes (k_w k) f (k_answers k))
  | KA id now =>
      n ← notices (k_w k) !! id; _ ← ensure (String.eqb (nt_to n) fa && bool_decide (k_answers k !! id = None)); pid ← mft_pool_of (nt_id n);
      f ← SpecFarming.fstep (k_f k) (SpecFarming.EvToken now (seed_of (k_self k) pid) (nt_from n) (nt_amount n) None);
      Some (mkStakes (k_w k) f (<[id := Some 0]> (k_answers k)))
  | KR id =>
      n ← notices (k_w k) !! id; _ ← ensure (String.eqb (nt_to n) fa && bool_decide (k_answers k !! id = None));
      Some (mkStakes (k_w k) (k_f k) (<[id := None]> (k_answers k)))
  | KP i e t =>
      _ ← ensure (String.eqb (e_caller e) fa);
      p ← SpecFarming.w_pend (k_f k) !! i;
      match p with
      | SpecFarming.PSeed s a x None =>
          _ ← ensure (String.eqb s (mft_seed (k_self k) t));
          w ← w_step (k_w k) (EvCall e (CMftTransfer (share_id t) a x)); Some (mkStakes w (paid_out (k_f k) i (mft_seed (k_self k) t) a x) (k_answers k))
      | _ => None
      end
  end.
Fixpoint k_run (fa : AccountId) (k : Stakes) (l : list KTag) : option Stakes :=
  match l with [] => Some k | g :: r => k' ← k_exec fa k g; k_run fa k' r end.
Lemma k_exec_step fa k g k' : k_exec fa k g = Some k' -> k_step fa k k'.
Proof.
  intros H. destruct g; cbn [k_exec] in H.
  - bnd H u Hu. apply ensure_Some in Hu. bnd H w Hw. injection H as <-. eapply k_exchange; [|exact Hw].
    destruct ev; cbn [exchange_event]; auto; [now apply negb_true_iff, String.eqb_neq in Hu|]. apply bool_decide_eq_true in Hu. auto.
  - bnd H u Hu. apply ensure_Some in Hu. bnd H f Hf. injection H as <-. eapply k_farm; [|exact Hf]. now destruct ev.
  - bnd H n Hn. bnd H u Hu. apply ensure_Some, andb_true_iff in Hu as [Hu Ha]. apply String.eqb_eq in Hu. apply bool_decide_eq_true in Ha.
    bnd H pid Hp. bnd H f Hf. injection H as <-. eapply k_accept; eauto.
  - bnd H n Hn. bnd H u Hu. apply ensure_Some, andb_true_iff in Hu as [Hu Ha]. apply String.eqb_eq in Hu. apply bool_decide_eq_true in Ha.
    injection H as <-. eapply k_refuse; eauto.
  - bnd H u Hu. apply ensure_Some, String.eqb_eq in Hu. bnd H p Hp. destruct p as [|s a x [|]]; try discriminate H. bnd H u' Hu'. apply ensure_Some, String.eqb_eq in Hu'. subst s.
    bnd H w Hw. injection H as <-. eapply k_pay; eauto.
Qed.
Lemma k_run_reach fa k0 l : forall k k', k_reach fa k0 k -> k_run fa k l = Some k' -> k_reach fa k0 k'.
Proof.
  induction l as [|g l IH]; intros k k' Hr H; cbn [k_run] in H; [now injection H as <-|].
  apply bind_Some in H as (k1 & H1 & H). eapply IH; [|exact H]. econstructor; [exact Hr|]. eapply k_exec_step; eauto.
Qed.
(** alice provides liquidity and stakes 500 of the shares; 3 more, below the minimum of the seed, are refused; then 200 are withdrawn. *)
Definition farm_events : list SpecFarming.fevent :=
  [SpecFarming.EvCall (PropFarming.sec 100) "owner" (SpecFarming.CCreateFarm (10 ^ 24) 200 (Farming.mkTerms "ref@0" "rew" 0 1000 60) (Some 10));
   SpecFarming.EvCall (PropFarming.sec 100) "al" (SpecFarming.CStorageDeposit "al" (10 ^ 24) false)].
Definition stake_start : Stakes := mkStakes w_fresh (PropFarming.ex_world farm_events) ∅.
Definition stake_events : list KTag :=
  map KE ex_events ++
  [ KE (EvCall (env 109 "al" (10 ^ 24)) (CMftRegister ":0" "ff")); KE (EvCall (env 110 "al" 1) (CMftTransferCall ":0" "ff" (Some 500)));
    KE (EvCall (env 111 "al" 1) (CMftTransferCall ":0" "ff" (Some 3))) ].
Definition k_sent : Stakes := default stake_start (k_run "ff" stake_start stake_events).
Definition stake_more : list KTag :=
  stake_events ++ [ KA 6 (PropFarming.sec 120); KR 7; KE (EvMftResolve 6 (env 112 "ref" 0) (Some 0));
    KF (SpecFarming.EvCall (PropFarming.sec 130) "al" (SpecFarming.CWithdrawSeed 1 "ref@0" 200)) ].
Definition k_asked : Stakes := default stake_start (k_run "ff" stake_start stake_more).
Definition stake_all : list KTag := stake_more ++ [ KP 0 (env 113 "ff" 1) "0"; KE (EvMftResolve 7 (env 114 "ref" 0) None); KF (SpecFarming.EvCallback (PropFarming.sec 131) 0) ].
Definition k_done : Stakes := default stake_start (k_run "ff" stake_start stake_all).
Lemma stake_start_ok : k_start "ff" stake_start.
Proof.
  assert (Hh : SpecFarming.w_hold (k_f stake_start) = ∅) by (vm_compute; reflexivity).
  assert (Hf : w_flights (k_w stake_start) = ∅) by reflexivity.
  split; [exact (w_start_ok _ w_fresh_start)|]. split; [apply PropFarming.ex_reachable, PropFarming.is_Some_bool; vm_compute; reflexivity|].
  split; [discriminate|]. split; [reflexivity|]. split; [intros id n H; unfold notices in H; rewrite Hf in H; rewrite lookup_omap, lookup_empty in H; discriminate H|].
  split; [|split].
  - intros pid. unfold farm_at, burrow_at, shadow_at. change (ex_account (w_ex (k_w stake_start)) "ff") with (@None Account). auto.
  - intros pid. unfold k_hold, Farming.mget. rewrite Hh, lookup_empty. apply N.le_0_l.
  - intros t _. unfold k_hold, Farming.mget. rewrite Hh, lookup_empty. reflexivity.
Qed.
Example C98_ex :
  k_start "ff" stake_start /\ k_reach "ff" stake_start k_sent /\ k_reach "ff" stake_start k_asked /\ k_reach "ff" stake_start k_done /\
  notices (k_w k_sent) !! 6 = Some (mkNotice ":0" "al" "ff" 500) /\ shares_at (w_ex (k_w k_sent)) 0 "ff" = 503 /\ on_the_way "ff" k_sent 0 = 503 /\
  k_answers k_asked !! 7 = Some None /\ on_the_way "ff" k_asked 0 = 3 /\ SpecFarming.stake_of (SpecFarming.w_c (k_f k_asked)) "al" (seed_of "ref" 0) = 300 /\
  SpecFarming.w_pend (k_f k_asked) !! 0%nat = Some (SpecFarming.PSeed (seed_of "ref" 0) "al" 200 None) /\
  option_map (fun p => bool_decide (pl_share_has_registered p "al")) (ex_pool (w_ex (k_w k_asked)) 0) = Some true /\
  shares_at (w_ex (k_w k_done)) 0 "ff" = 300 /\ option_map pl_supply (ex_pool (w_ex (k_w k_done)) 0) = Some (shares_at (w_ex (k_w k_done)) 0 "al" + 300) /\
  SpecFarming.seed_total (SpecFarming.w_c (k_f k_done)) (seed_of "ref" 0) = 300.
Proof.
  assert (H1 : k_run "ff" stake_start stake_events = Some k_sent) by (apply run_default; vm_compute; reflexivity).
  assert (H2 : k_run "ff" stake_start stake_more = Some k_asked) by (apply run_default; vm_compute; reflexivity).
  assert (H3 : k_run "ff" stake_start stake_all = Some k_done) by (apply run_default; vm_compute; reflexivity).
  split; [apply stake_start_ok|]. split; [eapply k_run_reach; [constructor|exact H1]|]. split; [eapply k_run_reach; [constructor|exact H2]|]. split; [eapply k_run_reach; [constructor|exact H3]|].
  repeat (split; [vm_compute; reflexivity|]). vm_compute. reflexivity.
Qed.
