(** * C81: what every event does to the farmers' stakes in the boost farming contract *)
From Verif Require Import Base BaseLemmas Boost SpecBoost BoostInv BoostCalls PropBoost.

(** The stake of an account in a seed: free amount, locked amount, power of the locked amount, unlocking time,
    duration of the lock. *)
Definition stake_in (c : BState) (a : AccountId) (s : SeedId) : N * N * N * N * N :=
  match b_farmers c !! a with Some F => holding s F | None => (0, 0, 0, 0, 0) end.
(** The power of an amount locked for [dur] seconds: between the amount and the amount times the maximal
    multiplier in basis points, linear in the duration. *)
Definition boosted (g : BConfig) (amount dur : N) : N :=
  amount + amount * ((c_max_mult g - 10000) * dur) / (c_max_dur g * 10000).
(** Locking [amount] more of the stake [free, locked, x, unlock, d] for [dur] seconds. *)
Definition locked_more (now : N) (g : BConfig) (h : N * N * N * N * N) (amount dur : N) : N * N * N * N * N :=
  let '(free, locked, x, unlock, d) := h in
  (free, locked + amount,
   if now <? unlock then N.max x (boosted g locked dur) + boosted g amount dur else boosted g (locked + amount) dur,
   now + dur * 10 ^ 9, dur).

Lemma compute_boosted g amount dur x : compute_x g amount dur = Some x -> x = boosted g amount dur.
Proof.
  intros H. apply compute_x_Some in H as (_ & _ & D & _ & ->). unfold boosted, b_nano. f_equal.
  change MIN_LOCKING_REWARD_RATIO with 10000.
  replace (amount * ((c_max_mult g - 10000) * (dur * 10 ^ 9))) with (amount * ((c_max_mult g - 10000) * dur) * 10 ^ 9) by lia.
  replace (c_max_dur g * 10 ^ 9 * 10000) with (c_max_dur g * 10000 * 10 ^ 9) by lia.
  apply N.div_mul_cancel_r; lia.
Qed.
Definition hold_of (k : BStake) : N * N * N * N * N := (k_free k, k_locked k, k_x k, k_unlock k, k_dur k).
Lemma relock_hold now g k amount dur k' :
  relock now g k amount dur = Some k' -> hold_of k' = locked_more now g (hold_of k) amount dur /\ k_unlock k <= N.max now (k_unlock k').
Proof.
  unfold relock, hold_of, locked_more. intros H. inv; subst. cbn [with_lock k_free k_locked k_x k_unlock k_dur].
  destruct (now <? k_unlock k) eqn:B.
  - replace (0 <? k_unlock k) with true in * by (symmetry; apply N.ltb_lt; bool_inv; lia). cbn [andb] in *. inv; subst. bool_inv.
    repeat match goal with E : compute_x _ _ _ = Some _ |- _ => apply compute_boosted in E as -> end. split; [reflexivity|]. unfold b_nano in *. lia.
  - rewrite andb_false_r in *. inv; subst. bool_inv.
    repeat match goal with E : compute_x _ _ _ = Some _ |- _ => apply compute_boosted in E as -> end. split; [reflexivity|lia].
Qed.

(** ** The four operations on a stake *)
Lemma stake_op_hold fl now c a s F sd op c' slash :
  zero_extra fl -> binv fl now c -> b_farmers c !! a = Some F -> get_seed now c s = Some sd ->
  good_op fl now op -> stake_op fl now c a s F sd op = Some (c', slash) ->
  exists sd1 k k' am pw, op sd1 k = Some (k', am, pw, slash) /\ stake_ok now k /\ bs_slash sd1 = bs_slash sd /\
    hold_of k = stake_in c a s /\ stake_in c' a s = hold_of k' /\
    (forall a1 s1, (a1, s1) <> (a, s) -> stake_in c' a1 s1 = stake_in c a1 s1).
Proof.
  intros Z I HF Hg G H.
  destruct (stake_op_spec fl now c a s F sd op c' slash Z I HF Hg G H)
    as (_ & F1 & sd1 & k & k' & am & pw & F' & Hcl & Hk & Hop & _ & Esl & _ & _ & _ & _ & _ & _ & _ & Ef & (_ & _ & SH & _) & Hk').
  destruct (claim_farmer _ _ _ _ _ _ _ Hcl) as (_ & _ & CH & _).
  exists sd1, k, k', am, pw. split; [exact Hop|]. split.
  { unfold get_seed in Hg. apply bind_Some in Hg as (sd0 & Hs0 & Hup).
    destruct (touch_seed _ _ _ _ _ _ _ I Hs0 Hup) as [I1 _].
    assert (LF : b_farmers (set_seed c s sd) !! a = Some F) by exact HF.
    assert (LS : b_seeds (set_seed c s sd) !! s = Some sd) by apply lookup_insert.
    destruct (claim_spec fl (b_cfg c) now _ a F s sd F1 sd1 Z I1 LF LS Hcl) as (I2 & _).
    apply (bi_stake _ _ _ I2 a F1 s k); [apply lookup_insert|exact Hk]. }
  split; [exact Esl|]. split.
  { unfold stake_in. rewrite HF, <- CH. unfold holding. now rewrite Hk. }
  unfold stake_in. rewrite Ef. split.
  { rewrite lookup_insert. unfold holding. now rewrite Hk'. }
  intros a1 s1 Hne. destruct (decide (a = a1)) as [<-|Ha]; [|now rewrite lookup_insert_ne].
  rewrite lookup_insert, HF, SH, <- CH. unfold holding. cbn [with_stake b_stakes].
  rewrite lookup_insert_ne by congruence. reflexivity.
Qed.

Theorem C81_free fl w now mft asset sender amount w' :
  zero_extra fl -> breach fl w -> bstep fl w (BvToken now mft asset sender amount MFree) = Some w' ->
  let '(free, locked, x, unlock, d) := stake_in (bw_c w) sender asset in
  stake_in (bw_c w') sender asset = (free + amount, locked, x, unlock, d) /\
  (forall a1 s1, (a1, s1) <> (sender, asset) -> stake_in (bw_c w') a1 s1 = stake_in (bw_c w) a1 s1).
Proof.
  intros Z Hw H. destruct (breach_inv fl w Z Hw) as [I0 _ _]. unfold bstep in H.
  apply bind_Some in H as (u & Ht & H). unfold b_tick in Ht. apply ensure_Some in Ht. bool_inv.
  apply bind_Some in H as (u1 & _ & H). apply bind_Some in H as (u2 & _ & H).
  apply bind_Some in H as (c' & Hc & H). injection H as <-. cbn [bw_c].
  assert (I : binv fl now (bw_c w)) by (eapply binv_mono; eauto).
  unfold on_transfer in Hc. apply bind_Some in Hc as (u3 & _ & Hc). unfold stake_free_seed in Hc.
  apply bind_Some in Hc as (F & HF & Hc). apply bind_Some in Hc as (sd & Hg & Hc). apply bind_Some in Hc as (u4 & _ & Hc).
  apply bind_Some in Hc as ([c1 sl] & Hop & Hc). injection Hc as ->.
  destruct (stake_op_hold _ _ _ _ _ _ _ _ _ _ Z I HF Hg (add_free_good fl now amount) Hop)
    as (sd1 & k & k' & am & pw & Ho & _ & _ & <- & E & Other).
  unfold add_free in Ho. inv; subst. unfold hold_of at 1. split; [exact E|exact Other].
Qed.
Theorem C81_lock fl w now mft asset sender amount dur w' :
  zero_extra fl -> breach fl w -> bstep fl w (BvToken now mft asset sender amount (MLock dur)) = Some w' ->
  stake_in (bw_c w') sender asset = locked_more now (b_cfg (bw_c w)) (stake_in (bw_c w) sender asset) amount dur /\
  (forall a1 s1, (a1, s1) <> (sender, asset) -> stake_in (bw_c w') a1 s1 = stake_in (bw_c w) a1 s1).
Proof.
  intros Z Hw H. destruct (breach_inv fl w Z Hw) as [I0 _ _]. unfold bstep in H.
  apply bind_Some in H as (u & Ht & H). unfold b_tick in Ht. apply ensure_Some in Ht. bool_inv.
  apply bind_Some in H as (u1 & _ & H). apply bind_Some in H as (u2 & _ & H).
  apply bind_Some in H as (c' & Hc & H). injection H as <-. cbn [bw_c].
  assert (I : binv fl now (bw_c w)) by (eapply binv_mono; eauto).
  unfold on_transfer in Hc. apply bind_Some in Hc as (u3 & _ & Hc). unfold stake_lock_seed in Hc.
  apply bind_Some in Hc as (F & HF & Hc). apply bind_Some in Hc as (sd & Hg & Hc). apply bind_Some in Hc as (u4 & _ & Hc).
  apply bind_Some in Hc as (u5 & _ & Hc). apply bind_Some in Hc as ([c1 sl] & Hop & Hc). injection Hc as ->.
  destruct (stake_op_hold _ _ _ _ _ _ _ _ _ _ Z I HF Hg (add_lock_good fl now (b_cfg (bw_c w)) amount dur) Hop)
    as (sd1 & k & k' & am & pw & Ho & _ & _ & <- & E & Other).
  unfold add_lock in Ho. inv; subst.
  match goal with R : relock _ _ _ _ _ = Some _ |- _ => apply relock_hold in R as [<- _] end. split; [exact E|exact Other].
Qed.
Theorem C81_lock_free fl w now a att s dur amount w' :
  zero_extra fl -> breach fl w -> bstep fl w (BvCall now a att (BLockFree s dur amount)) = Some w' ->
  let '(free, locked, x, unlock, d) := stake_in (bw_c w) a s in
  let n := default free amount in
  n <= free /\ unlock <= N.max now (now + dur * 10 ^ 9) /\
  stake_in (bw_c w') a s = locked_more now (b_cfg (bw_c w)) (free - n, locked, x, unlock, d) n dur /\
  (forall a1 s1, (a1, s1) <> (a, s) -> stake_in (bw_c w') a1 s1 = stake_in (bw_c w) a1 s1).
Proof.
  intros Z Hw H. destruct (breach_inv fl w Z Hw) as [I0 _ _]. unfold bstep in H.
  apply bind_Some in H as (u & Ht & H). unfold b_tick in Ht. apply ensure_Some in Ht. bool_inv.
  apply bind_Some in H as ([c' out] & Hc & H). apply bind_Some in H as (n & _ & H). injection H as <-. cbn [bw_c].
  assert (I : binv fl now (bw_c w)) by (eapply binv_mono; eauto).
  unfold bcall_exec in Hc. apply bind_Some in Hc as (v & _ & Hc). apply bind_Some in Hc as (c2 & Hc & E2). injection E2 as -> _.
  unfold lock_free_seed in Hc. apply bind_Some in Hc as (u3 & _ & Hc). apply bind_Some in Hc as (u4 & _ & Hc).
  apply bind_Some in Hc as (F & HF & Hc). apply bind_Some in Hc as (sd & Hg & Hc). apply bind_Some in Hc as (u5 & _ & Hc).
  apply bind_Some in Hc as ([c1 sl] & Hop & Hc). injection Hc as ->.
  destruct (stake_op_hold _ _ _ _ _ _ _ _ _ _ Z I HF Hg (free_to_lock_good fl now (b_cfg (bw_c w)) amount dur) Hop)
    as (sd1 & k & k' & am & pw & Ho & _ & _ & <- & E & Other).
  unfold free_to_lock in Ho. inv; subst. unfold hold_of at 1. cbv zeta.
  match goal with R : relock _ _ _ _ _ = Some _ |- _ => pose proof (relock_hold _ _ _ _ _ _ R) as [R1 R2]; rename R into R0 end.
  rewrite E, R1. split; [assumption|].
  split; [|split; [reflexivity|exact Other]].
  unfold hold_of, locked_more in R1. injection R1 as _ _ _ R1 _. rewrite R1 in R2. exact R2.
Qed.
(** Unlocking early: the penalty is the slash rate of the seed, in proportion to the remaining time. *)
Theorem C81_unlock fl w now a att s amount w' :
  zero_extra fl -> breach fl w -> bstep fl w (BvCall now a att (BForceUnlock s amount)) = Some w' ->
  exists sd, b_seeds (bw_c w) !! s = Some sd /\
  let '(free, locked, x, unlock, d) := stake_in (bw_c w) a s in
  let slash := amount * bs_slash sd / 10000 * (unlock - now) / (d * 10 ^ 9) in
  now < unlock /\ unlock - now <= d * 10 ^ 9 /\ 0 < amount /\ amount <= locked /\ slash <= amount /\
  stake_in (bw_c w') a s =
    (free + (amount - slash), locked - amount, x * (locked - amount) / locked,
     if amount =? locked then 0 else unlock, if amount =? locked then 0 else d) /\
  shares_get (b_slashed (bw_c w')) s = shares_get (b_slashed (bw_c w)) s + slash /\
  (forall a1 s1, (a1, s1) <> (a, s) -> stake_in (bw_c w') a1 s1 = stake_in (bw_c w) a1 s1).
Proof.
  intros Z Hw H. destruct (breach_inv fl w Z Hw) as [I0 _ _]. unfold bstep in H.
  apply bind_Some in H as (u & Ht & H). unfold b_tick in Ht. apply ensure_Some in Ht. bool_inv.
  apply bind_Some in H as ([c' out] & Hc & H). apply bind_Some in H as (n & _ & H). injection H as <-. cbn [bw_c].
  assert (I : binv fl now (bw_c w)) by (eapply binv_mono; eauto).
  unfold bcall_exec in Hc. apply bind_Some in Hc as (v & _ & Hc). apply bind_Some in Hc as (c2 & Hc & E2). injection E2 as -> _.
  unfold force_unlock in Hc. apply bind_Some in Hc as (u3 & _ & Hc). apply bind_Some in Hc as (u4 & _ & Hc).
  apply bind_Some in Hc as (F & HF & Hc). apply bind_Some in Hc as (sd & Hg & Hc).
  apply bind_Some in Hc as ([c1 sl] & Hop & Hc). apply bind_Some in Hc as (m & Hm & Hc). injection Hc as <-.
  apply add_to_collection_Some in Hm as [-> _].
  destruct (proj2 (stake_op_frame _ _ _ _ _ _ _ _ _ _ Hop)).
  destruct (stake_op_hold _ _ _ _ _ _ _ _ _ _ Z I HF Hg (unlock_good fl now amount) Hop)
    as (sd1 & k & k' & am & pw & Ho & Ok & Esl & Eh & E & Other).
  apply bind_Some in Ho as ([[k1 dec] slash] & Hu & Ho). inv; subst.
  unfold get_seed, seed_update in Hg. apply bind_Some in Hg as (sd0 & Hs0 & Hg). apply bind_Some in Hg as (fm & _ & Hg). injection Hg as <-.
  exists sd0. split; [exact Hs0|]. rewrite <- Eh. unfold hold_of at 1. cbv zeta.
  pose proof (unlock_slashed_Some fl now k amount (bs_slash sd1) k' dec sl Hu Ok)
    as (U1 & (U2 & U3) & U4 & U5 & U6 & U7 & U8 & U9 & _ & _ & U10 & _ & _).
  rewrite Esl in U5. cbn [bs_slash with_farms] in U5. unfold BP_DENOM, b_nano in U5. rewrite <- U5.
  destruct Ok as (_ & _ & O3 & _). unfold b_nano in O3.
  split; [exact U1|]. split; [lia|]. split; [exact U2|]. split; [exact U3|]. split; [exact U6|].
  split; [|split].
  - change (stake_in (set_slashed c1 _) a s) with (stake_in c1 a s). rewrite E. unfold hold_of. rewrite U7, U8, U9.
    destruct (amount =? k_locked k) eqn:B; bool_inv.
    + assert (k_unlock k' = 0 /\ k_dur k' = 0) as [-> ->]; [|reflexivity].
      unfold unlock_slashed in Hu. inv; subst.
      match goal with Q : (if ?b then _ else _) = Some _ |- _ =>
        replace b with false in Q by (symmetry; apply N.ltb_ge; lia); injection Q as <- end.
      split; reflexivity.
    + destruct U10 as [-> ->]; [lia|reflexivity].
  - cbn [set_slashed b_slashed]. rewrite shares_get_insert. congruence.
  - exact Other.
Qed.
(** ** Nothing else changes a stake *)
Definition stakes_event (e : bevent) : Prop :=
  match e with
  | BvToken _ _ _ _ _ MFree | BvToken _ _ _ _ _ (MLock _) => True
  | BvCall _ _ _ (BLockFree _ _ _) | BvCall _ _ _ (BForceUnlock _ _) => True
  | _ => False
  end.
(** the account an event acts for *)
Definition actor (e : bevent) : option AccountId :=
  match e with
  | BvToken _ _ _ a _ (MReward _ _) => None
  | BvToken _ _ _ a _ _ => Some a
  | BvCall _ _ _ (BStorageDeposit (Some a)) => Some a
  | BvCall _ a _ _ => Some a
  | BvGift _ _ => None
  end.

Lemma stake_op_farmers fl now c a s F sd op c' sl :
  zero_extra fl -> binv fl now c -> b_farmers c !! a = Some F -> get_seed now c s = Some sd ->
  good_op fl now op -> stake_op fl now c a s F sd op = Some (c', sl) ->
  exists F', b_farmers c' = <[a := F']> (b_farmers c) /\ b_sponsor F' = b_sponsor F /\
    forall t, shares_get (b_rewards F) t <= shares_get (b_rewards F') t.
Proof.
  intros Z I HF Hg G H.
  destruct (stake_op_spec fl now c a s F sd op c' sl Z I HF Hg G H)
    as (_ & F1 & sd1 & k & k' & am & pw & F' & Hcl & Hk & Hop & _ & _ & _ & _ & _ & _ & _ & _ & _ & Ef & (S1 & S2 & _ & _) & _).
  destruct (claim_farmer _ _ _ _ _ _ _ Hcl) as (C1 & C2 & _).
  exists F'. split; [exact Ef|]. split; [rewrite S1; exact C1|]. intros t. specialize (S2 t). specialize (C2 t).
  cbn [with_stake b_rewards] in S2. lia.
Qed.

(** What an event does to the farmers' records: nothing, or the actor's record changes and their rewards do not
    decrease, or an account without a record gets an empty one, or an empty record is removed. *)
Inductive farmers_change (c c' : BState) (a : option AccountId) : Prop :=
| FC_same : b_farmers c' = b_farmers c -> farmers_change c c' a
| FC_own b F F' : a = Some b -> b_farmers c !! b = Some F -> b_farmers c' = <[b := F']> (b_farmers c) ->
    b_sponsor F' = b_sponsor F -> (forall t, shares_get (b_rewards F) t <= shares_get (b_rewards F') t) -> farmers_change c c' a
| FC_new b p : a = Some b -> b_farmers c !! b = None -> b_farmers c' = <[b := mkBFarmer p ∅ ∅]> (b_farmers c) -> farmers_change c c' a
| FC_gone b F : a = Some b -> b_farmers c !! b = Some F -> b_rewards F = ∅ -> b_stakes F = ∅ ->
    b_farmers c' = delete b (b_farmers c) -> farmers_change c c' a.

Lemma call_farmers fl now c a att x c' out :
  zero_extra fl -> binv fl now c -> bcall_exec fl now c a att x = Some (c', out) ->
  farmers_change c c' (actor (BvCall now a att x)) /\
  (~ stakes_event (BvCall now a att x) -> forall b s, stake_in c' b s = stake_in c b s).
Proof.
  intros Z I H. unfold bcall_exec in H. apply bind_Some in H as (u & _ & H).
  assert (Same : forall d o e, b_farmers d = b_farmers c ->
    farmers_change c d o /\ (~ stakes_event e -> forall b s, stake_in d b s = stake_in c b s)).
  { intros d o e E. split; [apply FC_same; exact E|]. intros _ b s. unfold stake_in. now rewrite E. }
  destruct x.
  20: apply bind_Some in H as (u1 & Hu1 & H).
  1-20: apply bind_Some in H as (c1 & Hc & H); injection H as <- <-.
  - apply Same. unfold create_seed in Hc. apply bind_Some in Hc as (v & _ & Hc). destruct (b_seeds c !! s); [discriminate|]. injection Hc as <-. reflexivity.
  - apply Same. unfold create_farm in Hc. inv; subst. reflexivity.
  - apply Same. unfold cancel_farm in Hc. inv; subst. reflexivity.
  - apply Same. unfold remove_farm in Hc. inv; subst. reflexivity.
  - apply Same. unfold modify_booster in Hc. inv; subst. reflexivity.
  - apply Same. unfold modify_daily in Hc. inv; subst. reflexivity.
  - apply Same. unfold modify_locking_policy in Hc. inv; subst. reflexivity.
  - apply Same. unfold modify_max_farms in Hc. inv; subst. reflexivity.
  - apply Same. unfold modify_default_slash in Hc. inv; subst. reflexivity.
  - apply Same. unfold modify_min_deposit in Hc. inv; subst. reflexivity.
  - apply Same. unfold modify_min_lock in Hc. inv; subst. reflexivity.
  - apply Same. unfold modify_slash in Hc. inv; subst. reflexivity.
  - apply Same. unfold b_set_owner in Hc. inv; subst. reflexivity.
  - apply Same. unfold b_set_state in Hc. inv; subst. reflexivity.
  - apply Same. unfold b_set_state in Hc. inv; subst. reflexivity.
  - apply Same. unfold extend_operators in Hc. inv; subst. reflexivity.
  - apply Same. unfold remove_operators in Hc. inv; subst. reflexivity.
  - split; [|intros Hn; exfalso; apply Hn; exact Logic.I]. unfold lock_free_seed in Hc.
    apply bind_Some in Hc as (u3 & _ & Hc). apply bind_Some in Hc as (u4 & _ & Hc).
    apply bind_Some in Hc as (F & HF & Hc). apply bind_Some in Hc as (sd & Hg & Hc). apply bind_Some in Hc as (u5 & _ & Hc).
    apply bind_Some in Hc as ([c2 sl] & Hop & Hc). injection Hc as ->.
    destruct (stake_op_farmers _ _ _ _ _ _ _ _ _ _ Z I HF Hg (free_to_lock_good fl now (b_cfg c) amount dur) Hop) as (F' & E1 & E2 & E3).
    eapply FC_own; eauto.
  - split; [|intros Hn; exfalso; apply Hn; exact Logic.I]. unfold force_unlock in Hc.
    apply bind_Some in Hc as (u3 & _ & Hc). apply bind_Some in Hc as (u4 & _ & Hc).
    apply bind_Some in Hc as (F & HF & Hc). apply bind_Some in Hc as (sd & Hg & Hc).
    apply bind_Some in Hc as ([c2 sl] & Hop & Hc). apply bind_Some in Hc as (m & Hm & Hc). injection Hc as <-.
    destruct (stake_op_farmers _ _ _ _ _ _ _ _ _ _ Z I HF Hg (unlock_good fl now amount) Hop) as (F' & E1 & E2 & E3).
    eapply FC_own; eauto.
  - unfold claim_reward_by_seed in Hc. apply bind_Some in Hc as (u3 & _ & Hc).
    apply bind_Some in Hc as (F & HF & Hc). apply bind_Some in Hc as (sd & Hg & Hc).
    apply bind_Some in Hc as ([F' sd'] & Hcl & Hc). injection Hc as <-.
    destruct (claim_farmer _ _ _ _ _ _ _ Hcl) as (C1 & C2 & C3 & _). split.
    + eapply FC_own; eauto.
    + intros _ b s1. unfold stake_in. cbn [set_farmer set_farmers b_farmers set_seed set_seeds].
      destruct (decide (a = b)) as [<-|Hne]; [rewrite lookup_insert, HF; apply C3|now rewrite lookup_insert_ne].
  - unfold b_storage_deposit in H. apply bind_Some in H as (v & _ & H).
    destruct (b_farmers c !! default a acc) eqn:E.
    + injection H as <- <-. apply Same. reflexivity.
    + apply bind_Some in H as (r & Hr & H). apply bind_Some in H as (n & Hn & H). injection H as <- <-. split.
      * eapply (FC_new _ _ _ (default a acc) a); [destruct acc; reflexivity|exact E|reflexivity].
      * intros _ b s1. unfold stake_in. cbn [set_farmer_count set_farmer set_farmers b_farmers].
        destruct (decide (default a acc = b)) as [<-|Hne]; [|now rewrite lookup_insert_ne].
        rewrite lookup_insert, E. unfold holding. cbn [b_stakes]. now rewrite lookup_empty.
  - discriminate.
  - unfold b_storage_unregister in H. apply bind_Some in H as (v & _ & H).
    destruct (b_farmers c !! a) as [F|] eqn:E.
    + apply bind_Some in H as (v1 & Hv & H). apply bind_Some in H as (n & Hn & H). injection H as <- <-.
      apply ensure_Some in Hv. bool_inv. split; [eapply FC_gone; eauto|].
      intros _ b s1. unfold stake_in. cbn [set_farmer_count set_farmers b_farmers].
      destruct (decide (a = b)) as [<-|Hne]; [|now rewrite lookup_delete_ne].
      rewrite lookup_delete, E. unfold holding.
      match goal with Q : b_stakes F = ∅ |- _ => now rewrite Q, lookup_empty end.
    + injection H as <- <-. apply Same. reflexivity.
Qed.
Lemma step_farmers fl w e w' :
  zero_extra fl -> breach fl w -> bstep fl w e = Some w' ->
  farmers_change (bw_c w) (bw_c w') (actor e) /\
  (~ stakes_event e -> forall b s, stake_in (bw_c w') b s = stake_in (bw_c w) b s).
Proof.
  intros Z Hw H. destruct (breach_inv fl w Z Hw) as [I0 _ _]. unfold bstep in H.
  destruct e as [now a att x|now mft asset sender amount msg|asset amount].
  - apply bind_Some in H as (u & Ht & H). unfold b_tick in Ht. apply ensure_Some in Ht. bool_inv.
    apply bind_Some in H as ([c' out] & Hc & H). apply bind_Some in H as (n & _ & H). injection H as <-. cbn [bw_c].
    eapply call_farmers; eauto. eapply binv_mono; eauto.
  - apply bind_Some in H as (u & Ht & H). unfold b_tick in Ht. apply ensure_Some in Ht. bool_inv.
    apply bind_Some in H as (u1 & _ & H). apply bind_Some in H as (u2 & _ & H).
    apply bind_Some in H as (c' & Hc & H). injection H as <-. cbn [bw_c].
    assert (I : binv fl now (bw_c w)) by (eapply binv_mono; eauto).
    unfold on_transfer in Hc. apply bind_Some in Hc as (u3 & _ & Hc). destruct msg as [|dur|s i].
    + split; [|intros Hn; exfalso; apply Hn; exact Logic.I]. unfold stake_free_seed in Hc.
      apply bind_Some in Hc as (F & HF & Hc). apply bind_Some in Hc as (sd & Hg & Hc). apply bind_Some in Hc as (u4 & _ & Hc).
      apply bind_Some in Hc as ([c1 sl] & Hop & Hc). injection Hc as ->.
      destruct (stake_op_farmers _ _ _ _ _ _ _ _ _ _ Z I HF Hg (add_free_good fl now amount) Hop) as (F' & E1 & E2 & E3).
      eapply FC_own; eauto.
    + split; [|intros Hn; exfalso; apply Hn; exact Logic.I]. unfold stake_lock_seed in Hc.
      apply bind_Some in Hc as (F & HF & Hc). apply bind_Some in Hc as (sd & Hg & Hc). apply bind_Some in Hc as (u4 & _ & Hc).
      apply bind_Some in Hc as (u5 & _ & Hc). apply bind_Some in Hc as ([c1 sl] & Hop & Hc). injection Hc as ->.
      destruct (stake_op_farmers _ _ _ _ _ _ _ _ _ _ Z I HF Hg (add_lock_good fl now (b_cfg (bw_c w)) amount dur) Hop) as (F' & E1 & E2 & E3).
      eapply FC_own; eauto.
    + apply bind_Some in Hc as (u4 & _ & Hc). unfold deposit_reward in Hc. inv; subst.
      split; [apply FC_same; reflexivity|]. intros _ b s1. reflexivity.
  - injection H as <-. cbn [bw_c]. split; [apply FC_same; reflexivity|]. reflexivity.
Qed.

Theorem C81_else fl w e w' :
  zero_extra fl -> breach fl w -> bstep fl w e = Some w' -> ~ stakes_event e ->
  forall b s, stake_in (bw_c w') b s = stake_in (bw_c w) b s.
Proof. intros Z Hw H. exact (proj2 (step_farmers fl w e w' Z Hw H)). Qed.
(** Only an account's own events touch its record ... *)
Theorem C81_own fl w e w' b :
  zero_extra fl -> breach fl w -> bstep fl w e = Some w' -> actor e <> Some b ->
  b_farmers (bw_c w') !! b = b_farmers (bw_c w) !! b.
Proof.
  intros Z Hw H Hb. destruct (proj1 (step_farmers fl w e w' Z Hw H)) as [E|x F F' Ha _ E _ _|x p Ha _ E|x F Ha _ _ _ E]; rewrite E.
  - reflexivity.
  - apply lookup_insert_ne. congruence.
  - apply lookup_insert_ne. congruence.
  - apply lookup_delete_ne. congruence.
Qed.
(** ... and no event reduces a farmer's rewards. *)
Theorem C81_rewards_kept fl w e w' b F t :
  zero_extra fl -> breach fl w -> bstep fl w e = Some w' -> b_farmers (bw_c w) !! b = Some F ->
  match b_farmers (bw_c w') !! b with
  | Some F' => b_sponsor F' = b_sponsor F /\ shares_get (b_rewards F) t <= shares_get (b_rewards F') t
  | None => b_rewards F = ∅ /\ b_stakes F = ∅ /\ actor e = Some b
  end.
Proof.
  intros Z Hw H HF. destruct (proj1 (step_farmers fl w e w' Z Hw H)) as [E|x G F' Ha HG E S R|x p Ha HG E|x G Ha HG R0 S0 E]; rewrite E.
  - rewrite HF. split; [reflexivity|lia].
  - destruct (decide (x = b)) as [<-|Hne].
    + rewrite lookup_insert. rewrite HF in HG. injection HG as <-. auto.
    + rewrite lookup_insert_ne, HF by done. split; [reflexivity|lia].
  - rewrite lookup_insert_ne, HF by congruence. split; [reflexivity|lia].
  - destruct (decide (x = b)) as [<-|Hne].
    + rewrite lookup_delete. rewrite HF in HG. injection HG as <-. auto.
    + rewrite lookup_delete_ne, HF by done. split; [reflexivity|lia].
Qed.

(** ** Bounds *)
Theorem C81_boost_bounds g amount dur :
  0 < c_max_dur g -> 10000 <= c_max_mult g -> dur <= c_max_dur g ->
  amount <= boosted g amount dur /\ boosted g amount dur <= amount * c_max_mult g / 10000.
Proof.
  intros D M L. unfold boosted. split; [dlia|].
  assert (E : amount * ((c_max_mult g - 10000) * dur) / (c_max_dur g * 10000) <= amount * (c_max_mult g - 10000) / 10000).
  { rewrite <- N.div_div by lia. apply N.div_le_mono; [lia|].
    transitivity (amount * (c_max_mult g - 10000) * c_max_dur g / c_max_dur g); [|rewrite N.div_mul by lia; reflexivity].
    apply N.div_le_mono; [lia|]. rewrite N.mul_assoc. apply N.mul_le_mono_l. exact L. }
  replace (amount * c_max_mult g) with (amount * (c_max_mult g - 10000) + amount * 10000) by (rewrite <- N.mul_add_distr_l; f_equal; lia).
  rewrite N.div_add by lia. lia.
Qed.
(** A longer lock never has less power. *)
Theorem C81_boost_mono g amount dur dur' : 0 < c_max_dur g -> dur <= dur' -> boosted g amount dur <= boosted g amount dur'.
Proof.
  intros D L. unfold boosted. apply N.add_le_mono_l. apply N.div_le_mono; [lia|].
  apply N.mul_le_mono_l, N.mul_le_mono_l. exact L.
Qed.
Theorem C81_lock_state fl w a F s k :
  zero_extra fl -> breach fl w -> b_farmers (bw_c w) !! a = Some F -> b_stakes F !! s = Some k ->
  k_locked k <= k_x k /\ (k_locked k = 0 -> k_x k = 0) /\ k_unlock k <= bw_now w + k_dur k * 10 ^ 9.
Proof.
  intros Z Hw HF Hk. destruct (breach_inv fl w Z Hw) as [I _ _].
  destruct (bi_stake _ _ _ I a F s k HF Hk) as [(O1 & O2 & O3 & _) _]. auto.
Qed.
(** The penalty is at most the slash rate of the seed. *)
Theorem C81_penalty amount rate left d :
  left <= d * 10 ^ 9 -> amount * rate / 10000 * left / (d * 10 ^ 9) <= amount * rate / 10000.
Proof.
  intros L. destruct (decide (d = 0)) as [->|Hd]; [change (0 * 10 ^ 9) with 0 in *; destruct (_ * left); apply N.le_0_l|].
  transitivity (amount * rate / 10000 * (d * 10 ^ 9) / (d * 10 ^ 9)).
  - apply N.div_le_mono; [lia|]. apply N.mul_le_mono_l. exact L.
  - rewrite N.div_mul by lia. reflexivity.
Qed.
