(** * C105: exchange and mock-boost-farming agree on the shares that are staked *)
From stdpp Require Import pretty.
From Verif Require Import Base BaseLemmas SimplePool SimplePoolProofs SpecSimple SimplePoolInv StableMath StablePool
  SpecStable StablePoolProofs StablePoolInv Rates Echo Twap Account Pool Exchange SpecExchange AccountProofs PoolFacts
  ExchangeProofs ExchangeInv ExchangeEffect ExchangeFrames SpecWorld WorldProofs SpecSwap SwapProofs SpecHistory HistoryProofs SpecShadow ShadowProofs
  SpecAccess AccessProofs ExExample SpecStake StakeProofs PropWorld PropShares PropOwn PropIds PropStake FarmIds SpecLockup LockupProofs.
From Verif Require Import Boost SpecBoost.
From Verif Require PropBoost PropBoostStake PropBoostLimits.

(** ** The joint system consists of genuine executions of both contracts *)
Theorem C105_refines fl fa l0 l : l_start fl fa l0 -> l_reach fl fa l0 l -> w_steps (l_w l0) (l_w l) /\ breach fl (l_b l).
Proof.
  intros Hs H. split; [|apply (li_farm fl fa), (l_inv_reach fl fa l0); auto]. induction H as [|l l' Hr IH H]; [constructor|].
  destruct H; cbn [l_w]; auto; econstructor; eauto.
Qed.
Print Assumptions C105_refines.

(** ** The farm's stakes are there *)
(** Everything staked under any ids of a pool's shares, all penalties taken from such stakes, and everything sent and not
    yet accepted are together in the farm's balance of these shares at the exchange. *)
Theorem C105_backed fl fa l0 l pid seeds :
  zero_extra fl -> l_start fl fa l0 -> l_reach fl fa l0 l -> NoDup seeds -> Forall (fun s => names_pool (l_self l) pid s = true) seeds ->
  lsum (map (taken_in l) seeds) + coming fa l pid <= shares_at (w_ex (l_w l)) pid fa.
Proof.
  intros Z Hs H Hn Hf. apply (l_inv_reach fl fa) in H; [|done]. pose proof (li_hold _ _ _ H pid) as Hh.
  pose proof (pool_hold_list _ _ _ (bw_hold (l_b l)) Hn Hf) as Hp.
  assert (lsum (map (taken_in l) seeds) <= lsum (map (shares_get (bw_hold (l_b l))) seeds)); [|lia].
  clear -Z H. induction seeds as [|s seeds IH]; [reflexivity|]. cbn [map].
  change (taken_in l s + lsum (map (taken_in l) seeds) <= shares_get (bw_hold (l_b l)) s + lsum (map (shares_get (bw_hold (l_b l))) seeds)).
  apply N.add_le_mono; [|exact IH]. pose proof (PropBoost.C79_tokens fl (l_b l) s Z (li_farm _ _ _ H)) as K. unfold taken_in. lia.
Qed.
Print Assumptions C105_backed.
(** The ids of a pool's shares: "ex@t" for every decimal notation [t] of the pool's number. *)
Theorem C105_ids ex pid s : names_pool ex pid s = true <-> exists t, s = ex +:+ "@" +:+ t /\ mft_pool_of (":" +:+ t) = Some pid.
Proof.
  split.
  - unfold names_pool. destruct (after _ s) as [t|] eqn:E; [|discriminate]. intros H. apply bool_decide_eq_true in H. apply after_Some in E. exists t. split; [|exact H].
    rewrite E. apply sapp_assoc'.
  - intros (t & -> & H). change (ex +:+ "@" +:+ t) with (mft_seed ex t). rewrite names_seed. apply bool_decide_eq_true. exact H.
Qed.
Print Assumptions C105_ids.

(** ** Staking *)
(** What the farm accepts is staked for the sender, free or locked as the message says, under the id the shares were sent
    with; no other stake changes, and nothing changes at the exchange, neither then nor when the transfer is resolved. *)
Theorem C105_accepted fl fa l0 l n s now msg b' :
  zero_extra fl -> l_start fl fa l0 -> l_reach fl fa l0 l -> bo_seed_of_mft (l_self l) (nt_id n) = Some s ->
  bstep fl (l_b l) (BvToken now true s (nt_from n) (nt_amount n) msg) = Some b' ->
  (exists t, nt_id n = ":" +:+ t /\ s = l_self l +:+ "@" +:+ t) /\
  (let '(free, locked, x, unlock, d) := PropBoostStake.stake_in (bw_c (l_b l)) (nt_from n) s in
   msg = MFree /\ PropBoostStake.stake_in (bw_c b') (nt_from n) s = (free + nt_amount n, locked, x, unlock, d) \/
   exists dur x', msg = MLock dur /\ PropBoostStake.stake_in (bw_c b') (nt_from n) s = (free, locked + nt_amount n, x', now + dur * 10 ^ 9, dur)) /\
  (forall a u, (a, u) <> (nt_from n, s) -> PropBoostStake.stake_in (bw_c b') a u = PropBoostStake.stake_in (bw_c (l_b l)) a u).
Proof.
  intros Z Hs H Hi Hb. apply (l_inv_reach fl fa) in H; [|done]. pose proof (li_farm _ _ _ H) as Hf. split.
  { apply bo_seed_inv in Hi as (t & -> & ->). exists t. split; reflexivity. }
  destruct msg as [|dur|r i].
  - pose proof (PropBoostStake.C81_free fl _ _ _ _ _ _ _ Z Hf Hb) as K. destruct (PropBoostStake.stake_in (bw_c (l_b l)) (nt_from n) s) as [[[[free locked] x] unlock] d].
    destruct K as [K1 K2]. split; [left; auto|exact K2].
  - pose proof (PropBoostStake.C81_lock fl _ _ _ _ _ _ _ _ Z Hf Hb) as K. destruct (PropBoostStake.stake_in (bw_c (l_b l)) (nt_from n) s) as [[[[free locked] x] unlock] d].
    destruct K as [K1 K2]. split; [right; exists dur; eexists; split; [reflexivity|exact K1]|exact K2].
  - exfalso. unfold bstep in Hb. bnd Hb u1 H1. bnd Hb u2 H2. bnd Hb u3 H3. bnd Hb c' Hc. unfold on_transfer in Hc. bnd Hc u4 H4. bnd Hc u5 H5. discriminate H5.
Qed.
Print Assumptions C105_accepted.
Theorem C105_kept fl fa l0 l id e ret n w' :
  l_start fl fa l0 -> l_reach fl fa l0 l -> notices (l_w l) !! id = Some n -> nt_to n = fa -> l_answers l !! id = Some (Some 0) ->
  l_exchange_event fa l (EvMftResolve id e ret) -> w_step (l_w l) (EvMftResolve id e ret) = Some w' -> ret = Some 0 /\ w_ex w' = w_ex (l_w l).
Proof.
  intros Hs H Hn Hto Ha Hev Hw. apply (l_inv_reach fl fa) in H as Hi; [|done]. pose proof (Hev n Hn Hto) as E. rewrite Ha in E. injection E as <-.
  split; [done|]. apply w_step_notices in Hw as (n' & Hn' & _ & ->); [|apply (li_ok _ _ _ Hi)]. rewrite Hn in Hn'. injection Hn' as <-.
  unfold ex_mft_resolve. rewrite N.min_0_r. reflexivity.
Qed.
Print Assumptions C105_kept.
(** What the farm refuses goes back to the sender, all of it and from the farm's shares, if the sender is still registered
    with the exchange and with the pool. *)
Theorem C105_returned fl fa l0 l id e n pid p acc ret w' :
  l_start fl fa l0 -> l_reach fl fa l0 l -> notices (l_w l) !! id = Some n -> nt_to n = fa -> nt_from n <> fa -> 0 < nt_amount n ->
  mft_pool_of (nt_id n) = Some pid -> l_answers l !! id = Some None ->
  ex_pool (w_ex (l_w l)) pid = Some p -> pl_holder p (nt_from n) -> ex_account (w_ex (l_w l)) (nt_from n) = Some acc ->
  l_exchange_event fa l (EvMftResolve id e ret) -> w_step (l_w l) (EvMftResolve id e ret) = Some w' ->
  shares_moved (w_ex (l_w l)) (w_ex w') pid fa (nt_from n) (nt_amount n).
Proof.
  intros Hs H Hn Hto Hfr H0 Hp Ha Hpl Hh Hacc Hev Hw. apply (l_inv_reach fl fa) in H as Hi; [|done]. pose proof (Hev n Hn Hto) as E. rewrite Ha in E. injection E as <-.
  pose proof (li_ok _ _ _ Hi) as Hok. apply w_step_notices in Hw as (n' & Hn' & _ & ->); [|done]. rewrite Hn in Hn'. injection Hn' as <-.
  assert (Hx : nt_amount n <= shares_at (w_ex (l_w l)) pid fa).
  { pose proof (li_hold _ _ _ Hi pid) as Hk. unfold coming in Hk. pose proof (msum_lookup_le (fun j m => unstaked fa pid (l_answers l !! j) m) (notices (l_w l)) id) as Hl. rewrite Hn in Hl. cbn [contrib] in Hl.
    unfold unstaked in Hl at 1. rewrite Hto, String.eqb_refl, Hp, Ha, bool_decide_eq_true_2 in Hl by done. cbn [andb] in Hl. lia. }
  destruct (li_stakes _ _ _ Hi pid) as [E1 E2].
  destruct (mft_transfer_live (w_now (l_w l)) (w_ex (l_w l)) (nt_id n) pid p fa (nt_from n) (nt_amount n) (proj1 Hok) Hp Hpl) as [[c' y] Hm]; auto; [rewrite E1, E2; lia|].
  assert (Hr : ex_mft_resolve (w_ex (l_w l)) (nt_id n) (nt_from n) (nt_to n) (nt_amount n) None = Some c').
  { unfold ex_mft_resolve. cbv zeta. rewrite (proj2 (N.ltb_lt _ _) H0). unfold ex_mft_balance. rewrite Hp, Hpl. cbn [mbind option_bind].
    rewrite (shares_pool _ _ _ _ Hpl) in Hx. change (pl_share_balance p (nt_to n)) with (pl_share_of p (nt_to n)). rewrite Hto. rewrite (proj2 (N.ltb_lt 0 _)) by lia.
    unfold ex_account in Hacc. destruct (ex_accounts (w_ex (l_w l)) !! nt_from n); [|discriminate Hacc]. rewrite N.min_r by lia. rewrite Hm. reflexivity. }
  rewrite Hr. cbn [default from_option Datatypes.id].
  apply (mft_transfer_moved (w_now (l_w l))) in Hm as (_ & Hy & Hm & _); [|apply Hok]. rewrite (Hy _ eq_refl) in Hm. unfold mft_moved in Hm. now rewrite Hp in Hm.
Qed.
Print Assumptions C105_returned.

(** ** Staked shares stay *)
(** Whatever happens to the two contracts, the shares of the farm without those still on their way never become fewer:
    the liquidity behind a stake cannot be removed any more, not even by the farm's owner. *)
Theorem C105_stays fl fa l0 l l' pid :
  l_start fl fa l0 -> l_reach fl fa l0 l -> l_reach fl fa l l' ->
  shares_at (w_ex (l_w l)) pid fa - coming fa l pid <= shares_at (w_ex (l_w l')) pid fa - coming fa l' pid /\
  coming fa l' pid <= shares_at (w_ex (l_w l')) pid fa.
Proof.
  intros Hs H R.
  assert (K : l_reach fl fa l0 l' /\ shares_at (w_ex (l_w l)) pid fa + coming fa l' pid <= shares_at (w_ex (l_w l')) pid fa + coming fa l pid).
  { induction R as [|l1 l2 R [IH1 IH2] S]; [split; [done|lia]|]. split; [econstructor; eauto|].
    pose proof (l_inv_reach _ _ _ _ Hs IH1) as [Hok Hfr Hself Hans Hst Hh].
    destruct S as [ev w' Hev S|ev b' Hev S|id n s now msg b' Hn Hto Han Hi S|id n Hn Hto Han]; cbn [l_w].
    - destruct (way_step fa (l_w l1) (l_answers l1) ev w' Hok Hself Hans (fun p => proj2 (Hst p)) Hev S) as [_ B]. specialize (B pid).
      unfold way in B. unfold coming in *. cbn [l_w l_answers]. lia.
    - exact IH2.
    - pose proof (way_answer fa (l_w l1) (l_answers l1) id n (Some 0) pid Hn Han Hto) as K. unfold coming in *. cbn [l_w l_answers]. unfold way in K. cbn iota in K. lia.
    - pose proof (way_answer fa (l_w l1) (l_answers l1) id n None pid Hn Han Hto) as K. unfold coming in *. cbn [l_w l_answers]. unfold way in K. lia. }
  destruct K as [K1 K2]. pose proof (li_hold _ _ _ (l_inv_reach _ _ _ _ Hs K1) pid) as Hh. pose proof (li_hold _ _ _ (l_inv_reach _ _ _ _ Hs H) pid) as Hh0. lia.
Qed.
Print Assumptions C105_stays.

(** ** Example *)
(** alice provides liquidity, stakes 500 of the shares and locks 200 under another notation of the pool's number; 3 more, below
    the minimum of the seed, are refused; then part of the lock is broken. *)
Inductive LTag := LE (ev : Event) | LF (ev : bevent) | LA (id now : N) (msg : BMsg) | LR (id : N).
Definition l_exec (fl : Floats) (fa : AccountId) (l : Lockups) (g : LTag) : option Lockups :=
  match g with
  | LE ev =>
      _ ← ensure (match ev with
                  | EvCall e _ => negb (String.eqb (e_caller e) fa)
                  | EvMftResolve id _ ret => bool_decide (l_answers l !! id = Some ret)
                  | _ => true end);
      w ← w_step (l_w l) ev; Some (mkLockups w (l_b l) (answer_used (l_answers l) ev))
  | LF ev =>
      _ ← ensure (match ev with BvCall _ _ _ _ => true | _ => false end);
      b ← bstep fl (l_b l) ev; Some (mkLockups (l_w l) b (l_answers l))
  | LA id now msg =>
      n ← notices (l_w l) !! id; _ ← ensure (String.eqb (nt_to n) fa && bool_decide (l_answers l !! id = None)); s ← bo_seed_of_mft (l_self l) (nt_id n);
      b ← bstep fl (l_b l) (BvToken now true s (nt_from n) (nt_amount n) msg);
      Some (mkLockups (l_w l) b (<[id := Some 0]> (l_answers l)))
  | LR id =>
      n ← notices (l_w l) !! id; _ ← ensure (String.eqb (nt_to n) fa && bool_decide (l_answers l !! id = None));
      Some (mkLockups (l_w l) (l_b l) (<[id := None]> (l_answers l)))
  end.
Fixpoint l_run (fl : Floats) (fa : AccountId) (l : Lockups) (gs : list LTag) : option Lockups :=
  match gs with [] => Some l | g :: r => l' ← l_exec fl fa l g; l_run fl fa l' r end.
Lemma l_exec_step fl fa l g l' : l_exec fl fa l g = Some l' -> l_step fl fa l l'.
Proof.
  intros H. destruct g; cbn [l_exec] in H.
  - bnd H u Hu. apply ensure_Some in Hu. bnd H w Hw. injection H as <-. eapply l_exchange; [|exact Hw].
    destruct ev; cbn [l_exchange_event]; auto; [now apply negb_true_iff, String.eqb_neq in Hu|]. apply bool_decide_eq_true in Hu. auto.
  - bnd H u Hu. apply ensure_Some in Hu. bnd H f Hf. injection H as <-. eapply l_farm; [|exact Hf]. now destruct ev.
  - bnd H n Hn. bnd H u Hu. apply ensure_Some, andb_true_iff in Hu as [Hu Ha]. apply String.eqb_eq in Hu. apply bool_decide_eq_true in Ha.
    bnd H s Hp. bnd H f Hf. injection H as <-. eapply l_accept; eauto.
  - bnd H n Hn. bnd H u Hu. apply ensure_Some, andb_true_iff in Hu as [Hu Ha]. apply String.eqb_eq in Hu. apply bool_decide_eq_true in Ha.
    injection H as <-. eapply l_refuse; eauto.
Qed.
Lemma l_run_reach fl fa l0 gs : forall l l', l_reach fl fa l0 l -> l_run fl fa l gs = Some l' -> l_reach fl fa l0 l'.
Proof.
  induction gs as [|g gs IH]; intros l l' Hr H; cbn [l_run] in H; [now injection H as <-|].
  apply bind_Some in H as (l1 & H1 & H). eapply IH; [|exact H]. econstructor; [exact Hr|]. eapply l_exec_step; eauto.
Qed.
Lemma l_run_app fl fa gs1 gs2 : forall l l1, l_run fl fa l gs1 = Some l1 -> l_run fl fa l (gs1 ++ gs2) = l_run fl fa l1 gs2.
Proof.
  induction gs1 as [|g gs1 IH]; intros l l1 H; cbn [app l_run] in *; [now injection H as <-|].
  apply bind_Some in H as (l2 & H1 & H). rewrite H1. cbn [mbind option_bind]. auto.
Qed.
Definition lock_fl : Floats := PropBoost.ex_fl.
Definition lock_farm : BWorld := default (bw_init 0 "owner" 0) (brun lock_fl (bw_init 0 "owner" 0)
  [BvCall (10 ^ 9) "owner" 1 (BCreateSeed "ref@0" 24 (Some 10) (Some 100)); BvCall (10 ^ 9) "owner" 1 (BCreateSeed "ref@00" 24 (Some 10) (Some 100));
   BvCall (10 ^ 9) "al" (10 ^ 23) (BStorageDeposit None)]).
Definition lock_start : Lockups := mkLockups w_fresh lock_farm ∅.
Definition lock_events : list LTag :=
  map LE ExExample.ex_events ++
  [ LE (EvCall (env 109 "al" (10 ^ 24)) (CMftRegister ":0" "ff")); LE (EvCall (env 110 "al" 1) (CMftTransferCall ":0" "ff" (Some 500)));
    LE (EvCall (env 111 "al" 1) (CMftTransferCall ":00" "ff" (Some 200))); LE (EvCall (env 112 "al" 1) (CMftTransferCall ":0" "ff" (Some 3))) ].
Definition l_sent : Lockups := default lock_start (l_run lock_fl "ff" lock_start lock_events).
Definition lock_more : list LTag :=
  [ LA 6 (2 * 10 ^ 9) MFree; LA 7 (2 * 10 ^ 9) (MLock 1000); LR 8; LE (EvMftResolve 6 (env 113 "ref" 0) (Some 0)) ].
Definition l_staked : Lockups := default lock_start (l_run lock_fl "ff" l_sent lock_more).
Definition lock_rest : list LTag :=
  [ LE (EvMftResolve 8 (env 114 "ref" 0) None); LF (BvCall (3 * 10 ^ 9) "al" 1 (BForceUnlock "ref@00" 200)) ].
Definition l_done : Lockups := default lock_start (l_run lock_fl "ff" l_staked lock_rest).
Lemma lock_start_ok : l_start lock_fl "ff" lock_start.
Proof.
  assert (Hh : bw_hold (l_b lock_start) = ∅) by (vm_compute; reflexivity).
  assert (Hf : w_flights (l_w lock_start) = ∅) by reflexivity.
  split; [exact (w_start_ok _ w_fresh_start)|]. split.
  { eapply PropBoost.brun_reach; [apply (breach_init lock_fl 0 "owner" 0)|]. unfold lock_start, lock_farm. cbn [l_b]. apply run_default. vm_compute. reflexivity. }
  split; [discriminate|]. split; [reflexivity|]. split; [intros id n H; unfold notices in H; rewrite Hf in H; rewrite lookup_omap, lookup_empty in H; discriminate H|].
  split.
  - intros pid. unfold farm_at, burrow_at, shadow_at. change (ex_account (w_ex (l_w lock_start)) "ff") with (@None Account). auto.
  - intros t. unfold shares_get. rewrite Hh, lookup_empty. reflexivity.
Qed.
Example C105_ex :
  zero_extra lock_fl /\ l_start lock_fl "ff" lock_start /\ l_reach lock_fl "ff" lock_start l_sent /\ l_reach lock_fl "ff" l_sent l_staked /\ l_reach lock_fl "ff" l_staked l_done /\
  notices (l_w l_sent) !! 7 = Some (mkNotice ":00" "al" "ff" 200) /\ shares_at (w_ex (l_w l_sent)) 0 "ff" = 703 /\ coming "ff" l_sent 0 = 703 /\
  map (names_pool "ref" 0) ["ref@0"; "ref@00"; "ref@1"; "ref@x"; "ref"] = [true; true; false; false; false] /\
  map (taken_in l_staked) ["ref@0"; "ref@00"] = [500; 200] /\ l_answers l_staked !! 8 = Some None /\ coming "ff" l_staked 0 = 3 /\ shares_at (w_ex (l_w l_staked)) 0 "ff" = 703 /\
  map (taken_in l_done) ["ref@0"; "ref@00"] = [500; 200] /\ 0 < shares_get (b_slashed (bw_c (l_b l_done))) "ref@00" /\
  coming "ff" l_done 0 = 0 /\ shares_at (w_ex (l_w l_done)) 0 "ff" = 700.
Proof.
  assert (H1 : l_run lock_fl "ff" lock_start lock_events = Some l_sent) by (apply run_default; vm_compute; reflexivity).
  assert (H2 : l_run lock_fl "ff" l_sent lock_more = Some l_staked) by (apply run_default; vm_compute; reflexivity).
  assert (H3 : l_run lock_fl "ff" l_staked lock_rest = Some l_done) by (apply run_default; vm_compute; reflexivity).
  split; [apply PropBoost.ex_fl_zero|]. split; [apply lock_start_ok|]. split; [eapply l_run_reach; [constructor|exact H1]|]. split; [eapply l_run_reach; [constructor|exact H2]|].
  split; [eapply l_run_reach; [constructor|exact H3]|].
  repeat (split; [vm_compute; reflexivity|]). vm_compute. reflexivity.
Qed.
