(** * C85: what farmers of the boost farming contract cannot rely on; the examples for C83 to C86 *)
From Verif Require Import Base BaseLemmas Boost SpecBoost BoostInv BoostCalls BoostFit PropBoost PropBoostStake PropBoostFarm PropBoostAccess PropBoostLive.

Lemma run_of (l : list bevent) (w : BWorld) : brun ex_fl (bw_init ex_t0 "owner" 0) l = Some w -> breach ex_fl w.
Proof. intros H. eapply brun_reach; [|exact H]. constructor. Qed.

(** ** Locking more *)
(** A seed that allows locks of 100 seconds to a year, 20000 tokens locked for half a year, the lock has expired. *)
Definition lim_base : list bevent := [
  BvCall ex_t0 "owner" 1 (BCreateSeed "lp" 18 (Some 1000) (Some 100));
  BvCall ex_t0 "bob" (10 ^ 23) (BStorageDeposit None);
  BvToken ex_t0 false "lp" "bob" 20000 (MLock (86400 * 180))].
Definition lim_later : N := ex_t0 + 200 * ex_day.
Lemma fmap_None_inv {A B} (f : A -> B) (o : option A) : f <$> o = None -> o = None.
Proof. destruct o; [discriminate|reflexivity]. Qed.
Lemma fmap_Some_inv {A B} (f : A -> B) (o : option A) y : f <$> o = Some y -> is_Some o.
Proof. destruct o; [eauto|discriminate]. Qed.

(** The property "a lock of an allowed length is accepted whenever the old one has expired" is false: after an expired
    lock of half a year, 1000 more tokens can be staked freely and locked for a year, but not locked for 100 seconds
    or 30 days, because the stake would lose power (farmer_seed.rs:74 computes the growth of the power as an unsigned difference). *)
Theorem C85_relock_refuted :
  exists w now, breach ex_fl w /\ bw_now w <= now /\
    (exists F k, b_farmers (bw_c w) !! "bob" = Some F /\ b_stakes F !! "lp" = Some k /\ k_unlock k < now) /\
    is_Some (bstep ex_fl w (BvToken now false "lp" "bob" 1000 MFree)) /\
    is_Some (bstep ex_fl w (BvToken now false "lp" "bob" 1000 (MLock (86400 * 360)))) /\
    bstep ex_fl w (BvToken now false "lp" "bob" 1000 (MLock 100)) = None /\
    bstep ex_fl w (BvToken now false "lp" "bob" 1000 (MLock (86400 * 30))) = None.
Proof.
  assert (H : (fun w => ((fun w' => seed_total (bw_c w') "lp") <$> bstep ex_fl w (BvToken lim_later false "lp" "bob" 1000 MFree),
                         (fun w' => seed_total (bw_c w') "lp") <$> bstep ex_fl w (BvToken lim_later false "lp" "bob" 1000 (MLock (86400 * 360))),
                         (fun w' => seed_total (bw_c w') "lp") <$> bstep ex_fl w (BvToken lim_later false "lp" "bob" 1000 (MLock 100)),
                         (fun w' => seed_total (bw_c w') "lp") <$> bstep ex_fl w (BvToken lim_later false "lp" "bob" 1000 (MLock (86400 * 30))),
                         bw_now w <=? lim_later,
                         (fun k => k_unlock k <? lim_later) <$> (F ← b_farmers (bw_c w) !! "bob"; b_stakes F !! "lp")))
              <$> brun ex_fl (bw_init ex_t0 "owner" 0) lim_base = Some (Some 21000, Some 21000, None, None, true, Some true)).
  { vm_compute. reflexivity. }
  apply fmap_Some in H as (w & E & H). injection H as H1 H2 H3 H4 H5 H6. exists w, lim_later. split; [eapply run_of, E|].
  split; [apply N.leb_le; now symmetry|]. split.
  { symmetry in H6. apply fmap_Some in H6 as (k & Hk & H6). apply bind_Some in Hk as (F & HF & Hk). exists F, k. split; [exact HF|]. split; [exact Hk|].
    apply N.ltb_lt. now symmetry. }
  split; [exact (fmap_Some_inv _ _ _ (eq_sym H1))|]. split; [exact (fmap_Some_inv _ _ _ (eq_sym H2))|].
  split; [exact (fmap_None_inv _ _ (eq_sym H3))|exact (fmap_None_inv _ _ (eq_sym H4))].
Qed.

(** ** Expired locks *)
(** Once a lock has expired, the stake cannot be moved back to the free amount (unlocking after the end is
    commented out in the source), ... *)
Theorem C85_expired fl w now a att s amount F k :
  zero_extra fl -> breach fl w -> b_farmers (bw_c w) !! a = Some F -> b_stakes F !! s = Some k -> k_unlock k <= now ->
  bstep fl w (BvCall now a att (BForceUnlock s amount)) = None.
Proof.
  intros Z Hw HF Hk Hu. destruct (bstep fl w (BvCall now a att (BForceUnlock s amount))) as [w'|] eqn:E; [|reflexivity]. exfalso.
  destruct (C81_unlock fl w now a att s amount w' Z Hw E) as (sd & _ & H). unfold stake_in, holding in H. rewrite HF, Hk in H.
  destruct H as (H & _). lia.
Qed.
(** ... and no token ever leaves the contract. *)
Theorem C85_no_exit fl l : forall w w', brun fl w l = Some w' -> forall t, shares_get (bw_hold w) t <= shares_get (bw_hold w') t.
Proof.
  assert (Ins : forall (m : gmap string N) x n t, shares_get m t <= shares_get (<[x := shares_get m x + n]> m) t).
  { intros m x n t. destruct (decide (x = t)) as [->|Hne].
    - unfold shares_get at 2. rewrite lookup_insert. cbn [default from_option id]. apply N.le_add_r.
    - unfold shares_get at 2. rewrite lookup_insert_ne by exact Hne. unfold shares_get. reflexivity. }
  induction l as [|e l IH]; intros w w' R t; cbn [brun] in R; [now injection R as <-|].
  apply bind_Some in R as (w1 & H & R). etransitivity; [|eapply IH, R]. clear R IH.
  unfold bstep in H. destruct e as [now a att x|now mft asset sender amount msg|asset amount].
  - apply bind_Some in H as (u & _ & H). apply bind_Some in H as ([c' out] & _ & H). apply bind_Some in H as (n & _ & H). injection H as <-. reflexivity.
  - apply bind_Some in H as (u & _ & H). apply bind_Some in H as (u1 & _ & H). apply bind_Some in H as (u2 & _ & H).
    apply bind_Some in H as (c' & _ & H). injection H as <-. apply Ins.
  - injection H as <-. apply Ins.
Qed.

(** ** Removing a farm *)
(** "Rewards a farmer has earned but not claimed are not lost" is false: claiming before the owner removes the ended
    farm gives ann 500000 more of the reward token than claiming after, and the difference goes to the beneficiary. *)
Theorem C85_forfeit_refuted :
  exists w now, breach ex_fl w /\ bw_now w <= now /\
    (w1 ← bstep ex_fl w (BvCall now "ann" 0 (BClaim "lp"));
     w2 ← bstep ex_fl w1 (BvCall now "owner" 1 (BRemoveFarm "lp" 0));
     F ← b_farmers (bw_c w2) !! "ann"; f ← b_outdated (bw_c w2) !! ("lp", 0); Some (shares_get (b_rewards F) "ref", bf_benef f)) = Some (1045453, 3) /\
    (w1 ← bstep ex_fl w (BvCall now "owner" 1 (BRemoveFarm "lp" 0));
     w2 ← bstep ex_fl w1 (BvCall now "ann" 0 (BClaim "lp"));
     F ← b_farmers (bw_c w2) !! "ann"; f ← b_outdated (bw_c w2) !! ("lp", 0); Some (shares_get (b_rewards F) "ref", bf_benef f)) = Some (499999, 545457).
Proof.
  assert (H : (fun w => (bw_now w <=? ex_t0 + 3 * ex_day,
    (w1 ← bstep ex_fl w (BvCall (ex_t0 + 3 * ex_day) "ann" 0 (BClaim "lp"));
     w2 ← bstep ex_fl w1 (BvCall (ex_t0 + 3 * ex_day) "owner" 1 (BRemoveFarm "lp" 0));
     F ← b_farmers (bw_c w2) !! "ann"; f ← b_outdated (bw_c w2) !! ("lp", 0); Some (shares_get (b_rewards F) "ref", bf_benef f)),
    (w1 ← bstep ex_fl w (BvCall (ex_t0 + 3 * ex_day) "owner" 1 (BRemoveFarm "lp" 0));
     w2 ← bstep ex_fl w1 (BvCall (ex_t0 + 3 * ex_day) "ann" 0 (BClaim "lp"));
     F ← b_farmers (bw_c w2) !! "ann"; f ← b_outdated (bw_c w2) !! ("lp", 0); Some (shares_get (b_rewards F) "ref", bf_benef f))))
    <$> ex_upto 14 = Some (true, Some (1045453, 3), Some (499999, 545457))).
  { vm_compute. reflexivity. }
  apply fmap_Some in H as (w & E & H). injection H as H1 H2 H3. exists w, (ex_t0 + 3 * ex_day). split; [eapply run_of, E|].
  split; [apply N.leb_le; now symmetry|]. split; [exact (eq_sym H2)|exact (eq_sym H3)].
Qed.

(** ** Which events touch a seed, and when a farm disappears *)
(** Untouched, or updated to the present and with all its farms. *)
Definition farms_kept (sd sd' : BSeed) : Prop := forall i, is_Some (bs_farms sd !! i) -> is_Some (bs_farms sd' !! i).
Definition touched (now : N) (o o' : option BSeed) : Prop :=
  o' = o \/ exists sd sd', o = Some sd /\ is_Some (seed_update now sd) /\ o' = Some sd' /\ farms_kept sd sd'.
Lemma touched_trans now o1 o2 o3 : touched now o1 o2 -> touched now o2 o3 -> touched now o1 o3.
Proof.
  intros [->|(sd & sd' & -> & U & -> & K)] H2; [exact H2|]. right. destruct H2 as [->|(sd1 & sd2 & [= <-] & _ & -> & K2)].
  - exists sd, sd'. auto.
  - exists sd, sd2. split; [reflexivity|]. split; [exact U|]. split; [reflexivity|]. intros i Hi. auto.
Qed.
Lemma map_all_dom {A B} (g : N -> A -> option B) m m' i : map_all g m = Some m' -> is_Some (m !! i) -> is_Some (m' !! i).
Proof. intros H [x Hx]. pose proof (map_all_Some _ _ _ H i) as E. rewrite Hx in E. destruct E as (y & _ & E). eauto. Qed.
Lemma update_kept now sd sd' : seed_update now sd = Some sd' -> farms_kept sd sd'.
Proof. intros H i Hi. unfold seed_update in H. apply bind_Some in H as (m & Hm & H). injection H as <-. eapply map_all_dom; eauto. Qed.
Lemma claim_kept fl g s F sd F' sd' : do_claim fl g s F sd = Some (F', sd') -> farms_kept sd sd'.
Proof.
  intros H i Hi. apply do_claim_Some in H as (k & k' & res & rw & t & _ & Hres & _ & _ & _ & _ & ->). cbn [bs_farms with_total with_farms].
  rewrite lookup_fmap. destruct (map_all_dom _ _ _ i Hres Hi) as [y ->]. cbn. eauto.
Qed.
Lemma get_kept now c s sd sd' : get_seed now c s = Some sd -> farms_kept sd sd' -> touched now (b_seeds c !! s) (Some sd').
Proof.
  intros H K. unfold get_seed in H. apply bind_Some in H as (sd0 & Hs & Hu). right. exists sd0, sd'. split; [exact Hs|]. split; [eauto|].
  split; [reflexivity|]. intros i Hi. apply K. eapply update_kept; eauto.
Qed.
Lemma set_touched now c s sd sd' c' s1 :
  get_seed now c s = Some sd -> farms_kept sd sd' -> b_seeds c' = <[s := sd']> (b_seeds c) -> touched now (b_seeds c !! s1) (b_seeds c' !! s1).
Proof.
  intros H K E. rewrite E. destruct (decide (s = s1)) as [<-|Hne].
  - rewrite lookup_insert. eapply get_kept; eauto.
  - rewrite lookup_insert_ne by exact Hne. now left.
Qed.
Lemma update_seeds_touched fl now s1 l : forall c F c' F',
  update_seeds fl now l c F = Some (c', F') -> touched now (b_seeds c !! s1) (b_seeds c' !! s1).
Proof.
  induction l as [|s l IH]; intros c F c' F' H; cbn [update_seeds] in H; [injection H as <- <-; now left|].
  destruct (b_stakes F !! s); [|eauto].
  apply bind_Some in H as (sd & Hg & H). apply bind_Some in H as ([F1 sd1] & Hc & H).
  eapply touched_trans; [|eapply IH, H]. eapply (set_touched now c s sd sd1); [exact Hg|eapply claim_kept, Hc|reflexivity].
Qed.
Lemma stake_op_touched fl now c a s F sd op c' sl s1 :
  get_seed now c s = Some sd -> stake_op fl now c a s F sd op = Some (c', sl) -> touched now (b_seeds c !! s1) (b_seeds c' !! s1).
Proof.
  intros Hg H. unfold stake_op in H. apply bind_Some in H as ([F1 sd1] & Hcl & H). apply bind_Some in H as (k & Hk & H).
  apply bind_Some in H as ([[[k' am] pw] sl'] & Hop & H). apply bind_Some in H as ([c2 F2] & Him & H). injection H as <- <-.
  cbn [set_seed set_seeds b_seeds set_farmer set_farmers]. destruct (decide (s = s1)) as [<-|Hne].
  - rewrite lookup_insert. eapply get_kept; [exact Hg|]. exact (claim_kept _ _ _ _ _ _ _ Hcl).
  - rewrite lookup_insert_ne by exact Hne. unfold update_impacted in Him. destruct (c_boosters (b_cfg c) !! s).
    + eapply update_seeds_touched, Him.
    + injection Him as <- <-. now left.
Qed.
(** the three calls that do something else *)
Definition special (now : N) (c c' : BState) (a : AccountId) (att : N) (x : bcall) (s : SeedId) : Prop :=
  (exists d m l, x = BCreateSeed s d m l /\ b_seeds c !! s = None) \/
  (exists i sd f, (x = BCancelFarm s i /\ bf_total f = 0 /\ (a = b_owner c \/ a ∈ b_ops c) \/
                   x = BRemoveFarm s i /\ farm_status now f = BEnded /\ a = b_owner c) /\ att = 1 /\
     get_seed now c s = Some sd /\ bs_farms sd !! i = Some f /\
     exists sd', b_seeds c' !! s = Some sd' /\ bs_farms sd' = delete i (bs_farms sd)).
Lemma call_touched fl now c a att x c' out s1 :
  bcall_exec fl now c a att x = Some (c', out) -> touched now (b_seeds c !! s1) (b_seeds c' !! s1) \/ special now c c' a att x s1.
Proof.
  intros H. unfold bcall_exec in H. apply bind_Some in H as (u & _ & H).
  assert (Same : forall d, b_seeds d = b_seeds c -> touched now (b_seeds c !! s1) (b_seeds d !! s1)) by (intros d ->; now left).
  destruct x.
  20: apply bind_Some in H as (u1 & Hu1 & H).
  1-20: apply bind_Some in H as (c1 & Hc & H); injection H as <- <-.
  - unfold create_seed in Hc. apply bind_Some in Hc as (v & _ & Hc). destruct (b_seeds c !! s) eqn:Es; [discriminate|]. injection Hc as <-.
    destruct (decide (s = s1)) as [<-|Hne]; [right; left; eauto 10|left]. cbn [set_seed set_seeds b_seeds]. rewrite lookup_insert_ne by exact Hne. now left.
  - left. unfold create_farm in Hc. apply bind_Some in Hc as (v & _ & Hc). apply bind_Some in Hc as (sd & Hg & Hc). inv; subst.
    eapply set_touched; [exact Hg| |reflexivity]. cbn [bs_farms with_next with_farms]. intros i [f Hf]. destruct (decide (bs_next sd = i)) as [<-|Hne].
    + cbn [bs_farms with_next with_farms]. rewrite lookup_insert. eauto.
    + cbn [bs_farms with_next with_farms]. rewrite lookup_insert_ne by exact Hne. eauto.
  - unfold cancel_farm in Hc. apply bind_Some in Hc as (v & Hv & Hc). apply bind_Some in Hc as (sd & Hg & Hc). inv; subst.
    apply op_guard_Some in Hv as (A1 & A2 & _). destruct (decide (s = s1)) as [<-|Hne].
    + right. right. exists i, sd, x. bool_inv. split; [left; split; [reflexivity|]; split; [assumption|exact A2]|]. split; [exact A1|]. split; [exact Hg|]. split; [assumption|].
      cbn [set_farm_count set_seed set_seeds b_seeds]. rewrite lookup_insert. eexists. split; reflexivity.
    + left. left. cbn [set_farm_count set_seed set_seeds b_seeds]. now rewrite lookup_insert_ne.
  - unfold remove_farm in Hc. apply bind_Some in Hc as (v & Hv & Hc). apply bind_Some in Hc as (v1 & _ & Hc). apply bind_Some in Hc as (sd & Hg & Hc).
    apply bind_Some in Hc as (f & Hf & Hc). apply bind_Some in Hc as (f' & Hf' & Hc). inv; subst.
    apply owner_guard_Some in Hv as (A1 & A2). destruct (decide (s = s1)) as [<-|Hne].
    + right. right. exists i, sd, f. unfold finalize in Hf'. apply bind_Some in Hf' as (v & Hv & _). apply ensure_Some, bool_decide_eq_true in Hv.
      split; [right; auto|]. split; [exact A1|]. split; [exact Hg|]. split; [assumption|].
      cbn [set_farm_count set_seed set_seeds set_outdated b_seeds]. rewrite lookup_insert. eexists. split; reflexivity.
    + left. left. cbn [set_farm_count set_seed set_seeds set_outdated b_seeds]. now rewrite lookup_insert_ne.
  - left. apply Same. unfold modify_booster in Hc. inv; subst. reflexivity.
  - left. unfold modify_daily in Hc. apply bind_Some in Hc as (v & _ & Hc). apply bind_Some in Hc as (sd & Hg & Hc).
    apply bind_Some in Hc as (f & Hf & Hc). injection Hc as <-. eapply set_touched; [exact Hg| |reflexivity].
    intros j [g Hj]. cbn [bs_farms with_farms]. destruct (decide (i = j)) as [<-|Hne]; [rewrite lookup_insert; eauto|rewrite lookup_insert_ne by exact Hne; eauto].
  - left. apply Same. unfold modify_locking_policy in Hc. inv; subst. reflexivity.
  - left. apply Same. unfold modify_max_farms in Hc. inv; subst. reflexivity.
  - left. apply Same. unfold modify_default_slash in Hc. inv; subst. reflexivity.
  - left. unfold modify_min_deposit in Hc. apply bind_Some in Hc as (v & _ & Hc). apply bind_Some in Hc as (sd & Hg & Hc). injection Hc as <-.
    eapply set_touched; [exact Hg| |reflexivity]. intros i Hi. exact Hi.
  - left. unfold modify_min_lock in Hc. apply bind_Some in Hc as (v & _ & Hc). apply bind_Some in Hc as (v1 & _ & Hc). apply bind_Some in Hc as (sd & Hg & Hc). injection Hc as <-.
    eapply set_touched; [exact Hg| |reflexivity]. intros i Hi. exact Hi.
  - left. unfold modify_slash in Hc. apply bind_Some in Hc as (v & _ & Hc). apply bind_Some in Hc as (sd & Hg & Hc). injection Hc as <-.
    eapply set_touched; [exact Hg| |reflexivity]. intros i Hi. exact Hi.
  - left. apply Same. unfold b_set_owner in Hc. inv; subst. reflexivity.
  - left. apply Same. unfold b_set_state in Hc. inv; subst. reflexivity.
  - left. apply Same. unfold b_set_state in Hc. inv; subst. reflexivity.
  - left. apply Same. unfold extend_operators in Hc. inv; subst. reflexivity.
  - left. apply Same. unfold remove_operators in Hc. inv; subst. reflexivity.
  - left. unfold lock_free_seed in Hc.
    apply bind_Some in Hc as (u3 & _ & Hc). apply bind_Some in Hc as (u4 & _ & Hc).
    apply bind_Some in Hc as (F & HF & Hc). apply bind_Some in Hc as (sd & Hg & Hc). apply bind_Some in Hc as (u5 & _ & Hc).
    apply bind_Some in Hc as ([c2 sl] & Hop & Hc). injection Hc as ->. eapply stake_op_touched; eauto.
  - left. unfold force_unlock in Hc.
    apply bind_Some in Hc as (u3 & _ & Hc). apply bind_Some in Hc as (u4 & _ & Hc).
    apply bind_Some in Hc as (F & HF & Hc). apply bind_Some in Hc as (sd & Hg & Hc).
    apply bind_Some in Hc as ([c2 sl] & Hop & Hc). apply bind_Some in Hc as (m & Hm & Hc). injection Hc as <-.
    change (b_seeds (set_slashed c2 m)) with (b_seeds c2). eapply stake_op_touched; eauto.
  - left. unfold claim_reward_by_seed in Hc. apply bind_Some in Hc as (u3 & _ & Hc).
    apply bind_Some in Hc as (F & HF & Hc). apply bind_Some in Hc as (sd & Hg & Hc).
    apply bind_Some in Hc as ([F' sd'] & Hcl & Hc). injection Hc as <-.
    eapply set_touched; [exact Hg|eapply claim_kept, Hcl|reflexivity].
  - left. apply Same. unfold b_storage_deposit in H. apply bind_Some in H as (v & _ & H).
    destruct (b_farmers c !! default a acc); inv; subst; reflexivity.
  - discriminate.
  - left. apply Same. unfold b_storage_unregister in H. apply bind_Some in H as (v & _ & H).
    destruct (b_farmers c !! a); inv; subst; reflexivity.
Qed.
Lemma event_touched fl w e w' s1 :
  bstep fl w e = Some w' ->
  (match e with BvGift _ _ => bw_now w' = bw_now w | BvCall now _ _ _ | BvToken now _ _ _ _ _ => bw_now w' = now end) /\ bw_now w <= bw_now w' /\
  (touched (bw_now w') (b_seeds (bw_c w) !! s1) (b_seeds (bw_c w') !! s1) \/
   exists now a att x, e = BvCall now a att x /\ special now (bw_c w) (bw_c w') a att x s1).
Proof.
  intros H. unfold bstep in H. destruct e as [now a att x|now mft asset sender amount msg|asset amount].
  - apply bind_Some in H as (u & Ht & H). unfold b_tick in Ht. apply ensure_Some in Ht. bool_inv.
    apply bind_Some in H as ([c' out] & Hc & H). apply bind_Some in H as (n & _ & H). injection H as <-. cbn [bw_c bw_now].
    split; [reflexivity|]. split; [assumption|]. destruct (call_touched _ _ _ _ _ _ _ _ s1 Hc) as [Q|Q]; [now left|right; eauto 10].
  - apply bind_Some in H as (u & Ht & H). unfold b_tick in Ht. apply ensure_Some in Ht. bool_inv.
    apply bind_Some in H as (u1 & _ & H). apply bind_Some in H as (u2 & _ & H).
    apply bind_Some in H as (c' & Hc & H). injection H as <-. cbn [bw_c bw_now]. split; [reflexivity|]. split; [assumption|]. left.
    unfold on_transfer in Hc. apply bind_Some in Hc as (u3 & _ & Hc). destruct msg as [|dur|s i].
    + unfold stake_free_seed in Hc.
      apply bind_Some in Hc as (F & HF & Hc). apply bind_Some in Hc as (sd & Hg & Hc). apply bind_Some in Hc as (u4 & _ & Hc).
      apply bind_Some in Hc as ([c1 sl] & Hop & Hc). injection Hc as ->. eapply stake_op_touched; eauto.
    + unfold stake_lock_seed in Hc.
      apply bind_Some in Hc as (F & HF & Hc). apply bind_Some in Hc as (sd & Hg & Hc). apply bind_Some in Hc as (u4 & _ & Hc).
      apply bind_Some in Hc as (u5 & _ & Hc). apply bind_Some in Hc as ([c1 sl] & Hop & Hc). injection Hc as ->. eapply stake_op_touched; eauto.
    + apply bind_Some in Hc as (u4 & _ & Hc). unfold deposit_reward in Hc.
      apply bind_Some in Hc as (sd & Hg & Hc). apply bind_Some in Hc as (f & Hf & Hc). apply bind_Some in Hc as (g & Ha & Hc). injection Hc as <-.
      eapply set_touched; [exact Hg| |reflexivity]. intros j [h Hj]. cbn [bs_farms with_farms].
      destruct (decide (i = j)) as [<-|Hne]; [rewrite lookup_insert; eauto|rewrite lookup_insert_ne by exact Hne; eauto].
  - injection H as <-. cbn [bw_c bw_now]. split; [reflexivity|]. split; [reflexivity|]. left. now left.
Qed.

(** A farm with rewards disappears only when the owner removes it after it has distributed all of them; a farm
    without rewards only when the owner or an operator cancels it. *)
Theorem C85_removed_by fl w e w' s sd i f :
  bstep fl w e = Some w' -> b_seeds (bw_c w) !! s = Some sd -> bs_farms sd !! i = Some f ->
  (forall sd', b_seeds (bw_c w') !! s = Some sd' -> bs_farms sd' !! i = None) ->
  exists now a x, e = BvCall now a 1 x /\
    (x = BCancelFarm s i /\ bf_total f = 0 /\ (a = b_owner (bw_c w) \/ a ∈ b_ops (bw_c w)) \/
     x = BRemoveFarm s i /\ 0 < bf_total f /\ a = b_owner (bw_c w)).
Proof.
  intros H Hs Hf Gone. destruct (event_touched fl w e w' s H) as (_ & _ & [T|(now & a & att & x & -> & Sp)]).
  - exfalso. destruct T as [E|(sd0 & sd' & E & _ & E' & K)].
    + rewrite Hs in E. specialize (Gone sd E). congruence.
    + rewrite Hs in E. injection E as <-. destruct (K i) as [f' Hf']; [eauto|]. rewrite (Gone sd' E') in Hf'. discriminate.
  - destruct Sp as [(d & m & l & _ & E)|(j & sd1 & f1 & Ev & -> & Hg & Hf1 & sd' & E' & Ed)]; [congruence|].
    specialize (Gone sd' E'). rewrite Ed in Gone.
    unfold get_seed in Hg. rewrite Hs in Hg. cbn [mbind option_bind] in Hg.
    destruct (decide (j = i)) as [->|Hne].
    + destruct (update_rel _ _ _ Hg) as [_ R]. destruct (R i f1 Hf1) as (f0 & Hf0 & G). rewrite Hf in Hf0. injection Hf0 as <-.
      pose proof (gr_total _ _ _ G) as Et. exists now, a, x. split; [reflexivity|]. destruct Ev as [(-> & E0 & Op)|(-> & E0 & ->)].
      * left. split; [reflexivity|]. split; [congruence|exact Op].
      * right. split; [reflexivity|]. split; [|reflexivity]. rewrite <- Et. unfold farm_status in E0.
        destruct ((bf_start f1 =? 0) || (now <=? b_nano (bf_start f1))); [discriminate|].
        destruct ((bf_total f1 =? 0) && (b_nano (bf_start f1) <? now)); [discriminate|].
        destruct ((0 <? bf_total f1) && (bf_total f1 <=? bf_dist f1)) eqn:B; [|discriminate]. bool_inv. assumption.
    + exfalso. destruct (update_kept _ _ _ Hg i) as [f' Hf']; [eauto|]. rewrite lookup_delete_ne in Gone by exact Hne. congruence.
Qed.

(** ** A daily reward that does not fit *)
(** A farm of a seed whose due reward exceeds a u128 stops its seed for good: from then on no sequence of events changes
    the seed, so nobody can stake in it, unlock, claim, remove the farm or set another daily reward. *)
Definition overdue (now : N) (f : BFarm) : Prop :=
  bf_start f <> 0 /\ b_nano (bf_start f) < now /\ bf_at f < now /\ bf_dist f < bf_total f /\
  W128 * NANOS_PER_DAY <= bf_daily f * (now - bf_at f).
Lemma overdue_update now p f : overdue now f -> farm_update now p f = None.
Proof.
  intros (H1 & H2 & H3 & H4 & H5). unfold farm_update. rewrite (proj2 (N.leb_gt now (bf_at f)) H3).
  assert (farm_status now f = BRunning) as ->.
  { unfold farm_status. rewrite (proj2 (N.eqb_neq _ _) H1), (proj2 (N.leb_gt _ _) H2). cbn [orb].
    rewrite (proj2 (N.eqb_neq (bf_total f) 0)) by lia. cbn [andb]. rewrite (proj2 (N.leb_gt _ _) H4), andb_false_r. reflexivity. }
  rewrite csub_intro by lia. cbn [mbind option_bind].
  destruct (u128_ratio (bf_daily f) (now - bf_at f) NANOS_PER_DAY) as [d|] eqn:E; [|reflexivity]. exfalso.
  apply u128_ratio_Some in E as (-> & D & L). assert (W128 <= bf_daily f * (now - bf_at f) / NANOS_PER_DAY); [|lia].
  apply N.div_le_lower_bound; lia.
Qed.
Lemma overdue_mono now now' f : now <= now' -> overdue now f -> overdue now' f.
Proof.
  intros L (H1 & H2 & H3 & H4 & H5). split; [exact H1|]. split; [lia|]. split; [lia|]. split; [exact H4|].
  etransitivity; [exact H5|]. apply N.mul_le_mono_l. lia.
Qed.
Lemma overdue_seed now s sd i f : bs_farms sd !! i = Some f -> overdue now f -> forall c, b_seeds c !! s = Some sd -> get_seed now c s = None /\ seed_update now sd = None.
Proof.
  intros Hf O c Hs. assert (seed_update now sd = None) as E.
  { unfold seed_update. destruct (map_all (fun _ f => farm_update now (bs_power sd) f) (bs_farms sd)) as [m|] eqn:E; [|reflexivity]. exfalso.
    pose proof (map_all_Some _ _ _ E i) as R. rewrite Hf in R. destruct R as (y & R & _). rewrite overdue_update in R by exact O. discriminate. }
  split; [|exact E]. unfold get_seed. rewrite Hs. exact E.
Qed.
Theorem C85_daily_stuck fl l : forall w w' s sd i f,
  brun fl w l = Some w' -> b_seeds (bw_c w) !! s = Some sd -> bs_farms sd !! i = Some f -> overdue (bw_now w) f ->
  b_seeds (bw_c w') !! s = Some sd.
Proof.
  induction l as [|e l IH]; intros w w' s sd i f R Hs Hf O; cbn [brun] in R; [now injection R as <-|].
  apply bind_Some in R as (w1 & H & R). destruct (event_touched fl w e w1 s H) as (Nw & L & T).
  assert (O1 : overdue (bw_now w1) f) by (eapply overdue_mono; eauto).
  destruct (overdue_seed (bw_now w1) s sd i f Hf O1 (bw_c w) Hs) as [G U].
  eapply (IH w1 w' s sd i f); [exact R| |exact Hf|exact O1].
  destruct T as [[E|(sd0 & sd' & E & [u Hu] & _)]|(now & a & att & x & -> & [(d & m & q & _ & E)|(j & sd1 & f1 & _ & _ & Hg & _)])].
  - congruence.
  - rewrite Hs in E. injection E as <-. congruence.
  - congruence.
  - rewrite <- Nw in Hg. congruence.
Qed.
(** "An operator can repair a farm with a wrong daily reward" is false. *)
Definition lim_daily : list bevent := lim_base ++ [
  BvCall ex_t0 "owner" 1 (BCreateFarm "lp" "ref" 0 (2 ^ 128 - 1));
  BvToken ex_t0 false "ref" "dan" (10 ^ 40 / 10 ^ 2) (MReward "lp" 0)].
Theorem C85_daily_refuted :
  exists w sd f now, breach ex_fl w /\ b_seeds (bw_c w) !! "lp" = Some sd /\ bs_farms sd !! 0 = Some f /\ bw_now w <= now /\ overdue now f /\
    bstep ex_fl w (BvCall now "owner" 1 (BModifyDaily "lp" 0 1)) = None /\
    bstep ex_fl w (BvCall now "bob" 1 (BForceUnlock "lp" 5000)) = None /\
    bstep ex_fl w (BvCall now "bob" 0 (BClaim "lp")) = None.
Proof.
  set (now := ex_t0 + 2 * ex_day).
  assert (H : (fun w => (bw_now w <=? now,
     (fun f => negb (bf_start f =? 0) && (b_nano (bf_start f) <? now) && (bf_at f <? now) && (bf_dist f <? bf_total f) &&
               (W128 * NANOS_PER_DAY <=? bf_daily f * (now - bf_at f))) <$> (sd ← b_seeds (bw_c w) !! "lp"; bs_farms sd !! 0)))
     <$> brun ex_fl (bw_init ex_t0 "owner" 0) lim_daily = Some (true, Some true)).
  { vm_compute. reflexivity. }
  apply fmap_Some in H as (w & E & H). injection H as H1 H2. symmetry in H1, H2. apply N.leb_le in H1.
  apply fmap_Some in H2 as (f & Hf & H2). apply bind_Some in Hf as (sd & Hs & Hf). symmetry in H2. rewrite !andb_true_iff in H2.
  destruct H2 as ((((A1 & A2) & A3) & A4) & A5).
  apply negb_true_iff, N.eqb_neq in A1. apply N.ltb_lt in A2, A3, A4. apply N.leb_le in A5.
  assert (O : overdue now f) by (split; [exact A1|]; split; [exact A2|]; split; [exact A3|]; split; [exact A4|exact A5]).
  exists w, sd, f, now. split; [eapply run_of, E|]. split; [exact Hs|]. split; [exact Hf|]. split; [exact H1|]. split; [exact O|].
  clear E. clearbody now.
  destruct (overdue_seed now "lp" sd 0 f Hf O (bw_c w) Hs) as [G _].
  split; [|split].
  - destruct (bstep ex_fl w (BvCall now "owner" 1 (BModifyDaily "lp" 0 1))) as [w'|] eqn:E; [exfalso|reflexivity].
    unfold bstep in E. apply bind_Some in E as (u & _ & E). apply bind_Some in E as ([c' out] & E & _).
    unfold bcall_exec in E. apply bind_Some in E as (u1 & _ & E). apply bind_Some in E as (c1 & E & _).
    unfold modify_daily in E. rewrite G in E. apply bind_Some in E as (u2 & _ & E). discriminate.
  - destruct (bstep ex_fl w (BvCall now "bob" 1 (BForceUnlock "lp" 5000))) as [w'|] eqn:E; [exfalso|reflexivity].
    unfold bstep in E. apply bind_Some in E as (u & _ & E). apply bind_Some in E as ([c' out] & E & _).
    unfold bcall_exec in E. apply bind_Some in E as (u1 & _ & E). apply bind_Some in E as (c1 & E & _).
    unfold force_unlock in E. rewrite G in E. apply bind_Some in E as (u2 & _ & E). apply bind_Some in E as (u3 & _ & E). apply bind_Some in E as (F & _ & E). discriminate.
  - destruct (bstep ex_fl w (BvCall now "bob" 0 (BClaim "lp"))) as [w'|] eqn:E; [exfalso|reflexivity].
    unfold bstep in E. apply bind_Some in E as (u & _ & E). apply bind_Some in E as ([c' out] & E & _).
    unfold bcall_exec in E. apply bind_Some in E as (u1 & _ & E). apply bind_Some in E as (u4 & _ & E). apply bind_Some in E as (c1 & E & _).
    unfold claim_reward_by_seed in E. rewrite G in E. apply bind_Some in E as (u2 & _ & E). apply bind_Some in E as (F & _ & E). discriminate.
Qed.

(** ** Rewards deposited late *)
(** "Rewards are earned from when they are deposited" is false: a farm with a start time and no deposit pays, one
    second after its first deposit, for all the time since its start: here 10 days at 1000 a day at once. *)
Definition lim_late : list bevent := lim_base ++ [
  BvCall ex_t0 "owner" 1 (BCreateFarm "lp" "ref" 1700000000 1000);
  BvToken (ex_t0 + 10 * ex_day) false "ref" "dan" 50000 (MReward "lp" 0)].
Theorem C85_late_refuted :
  exists w, breach ex_fl w /\ bw_now w = ex_t0 + 10 * ex_day /\
    (w1 ← bstep ex_fl w (BvCall (ex_t0 + 10 * ex_day + 10 ^ 9) "bob" 0 (BClaim "lp"));
     F ← b_farmers (bw_c w1) !! "bob"; Some (shares_get (b_rewards F) "ref")) = Some 9999.
Proof.
  assert (H : (fun w => (bw_now w, w1 ← bstep ex_fl w (BvCall (ex_t0 + 10 * ex_day + 10 ^ 9) "bob" 0 (BClaim "lp"));
     F ← b_farmers (bw_c w1) !! "bob"; Some (shares_get (b_rewards F) "ref"))) <$> brun ex_fl (bw_init ex_t0 "owner" 0) lim_late
     = Some (ex_t0 + 10 * ex_day, Some 9999)).
  { vm_compute. reflexivity. }
  apply fmap_Some in H as (w & E & H). injection H as H1 H2. exists w. split; [eapply run_of, E|]. split; [exact (eq_sym H1)|exact (eq_sym H2)].
Qed.

(** ** Penalties above the stake *)
(** "A running lock can always be given up" is false for a seed with a slash rate above 100%, which an operator can set
    (management.rs:111-122 does not compare it with the basis; compare C86_unlock). *)
Definition lim_slash : list bevent := lim_base ++ [BvCall ex_t0 "owner" 1 (BModifySlash "lp" 10300)].
Theorem C85_slash_refuted :
  exists w F k, breach ex_fl w /\ b_farmers (bw_c w) !! "bob" = Some F /\ b_stakes F !! "lp" = Some k /\
    k_locked k = 20000 /\ ex_t0 + ex_day < k_unlock k /\
    bstep ex_fl w (BvCall (ex_t0 + ex_day) "bob" 1 (BForceUnlock "lp" 5000)) = None /\
    bstep ex_fl w (BvCall (ex_t0 + ex_day) "bob" 1 (BForceUnlock "lp" 20000)) = None.
Proof.
  assert (H : (fun w => ((fun k => (k_locked k, ex_t0 + ex_day <? k_unlock k)) <$> (F ← b_farmers (bw_c w) !! "bob"; b_stakes F !! "lp"),
     (fun w' => seed_total (bw_c w') "lp") <$> bstep ex_fl w (BvCall (ex_t0 + ex_day) "bob" 1 (BForceUnlock "lp" 5000)),
     (fun w' => seed_total (bw_c w') "lp") <$> bstep ex_fl w (BvCall (ex_t0 + ex_day) "bob" 1 (BForceUnlock "lp" 20000))))
     <$> brun ex_fl (bw_init ex_t0 "owner" 0) lim_slash = Some (Some (20000, true), None, None)).
  { vm_compute. reflexivity. }
  apply fmap_Some in H as (w & E & H). injection H as H1 H2 H3. symmetry in H1. apply fmap_Some in H1 as (k & Hk & H1). injection H1 as L1 L2.
  apply bind_Some in Hk as (F & HF & Hk). exists w, F, k. split; [eapply run_of, E|]. split; [exact HF|]. split; [exact Hk|]. split; [exact (eq_sym L1)|].
  split; [apply N.ltb_lt; exact (eq_sym L2)|]. split; [exact (fmap_None_inv _ _ (eq_sym H2))|exact (fmap_None_inv _ _ (eq_sym H3))].
Qed.
(** With a rate of at most 100% the penalty is at most the amount. *)
Theorem C85_slash fl w now a att s amount w' sd :
  zero_extra fl -> breach fl w -> bstep fl w (BvCall now a att (BForceUnlock s amount)) = Some w' ->
  b_seeds (bw_c w) !! s = Some sd ->
  shares_get (b_slashed (bw_c w')) s - shares_get (b_slashed (bw_c w)) s <= amount * bs_slash sd / 10000.
Proof.
  intros Z Hw H Hs. destruct (C81_unlock fl w now a att s amount w' Z Hw H) as (sd0 & Hs0 & Q). rewrite Hs in Hs0. injection Hs0 as <-.
  destruct (stake_in (bw_c w) a s) as [[[[free locked] x] unlock] d]. cbv zeta in Q. destruct Q as (_ & L & _ & _ & _ & _ & E & _). rewrite E.
  pose proof (C81_penalty amount (bs_slash sd) (unlock - now) d L) as P. remember (_ / (d * 10 ^ 9)) as y. lia.
Qed.

(** ** Examples *)
(** C83, C84: the events of [ex_events] and some others, one that fails for every guard *)
Definition adm (l : list bevent) (e : bevent) : option bool := w ← brun ex_fl (bw_init ex_t0 "owner" 0) l; Some (match bstep ex_fl w e with Some _ => true | None => false end).
Example C83_case :
  (adm lim_base (BvCall ex_t0 "owner" 1 (BExtendOps ["op"])),
   adm lim_base (BvCall ex_t0 "op" 1 (BModifyPolicy 86400 30000)),
   adm (lim_base ++ [BvCall ex_t0 "owner" 1 (BExtendOps ["op"])]) (BvCall ex_t0 "op" 1 (BModifyPolicy 86400 30000)),
   adm (lim_base ++ [BvCall ex_t0 "owner" 1 (BExtendOps ["op"])]) (BvCall ex_t0 "op" 1 BPause),
   adm (lim_base ++ [BvCall ex_t0 "owner" 1 BPause]) (BvToken ex_t0 false "lp" "bob" 1000 MFree),
   adm (lim_base ++ [BvCall ex_t0 "owner" 1 BPause; BvCall ex_t0 "owner" 1 BResume]) (BvToken ex_t0 false "lp" "bob" 1000 MFree))
  = (Some true, Some false, Some true, Some false, Some false, Some true).
Proof. vm_compute. reflexivity. Qed.
(** the terms of a seed: created with the defaults, then each changed once *)
Example C83_terms_case :
  (fun w => (all_terms (bw_c w) !! "seed2", all_terms (bw_c w) !! "lp")) <$>
    brun ex_fl (bw_init ex_t0 "owner" 0) (lim_base ++
      [BvCall ex_t0 "owner" 1 (BCreateSeed "seed2" 6 None None); BvCall ex_t0 "owner" 1 (BModifyMinDeposit "seed2" 5);
       BvCall ex_t0 "owner" 1 (BModifySlash "seed2" 7); BvCall ex_t0 "owner" 1 (BModifyMinLock "seed2" 9)])
  = (fun w => (Some (6, 5, 7, 9), all_terms (bw_c w) !! "lp")) <$> brun ex_fl (bw_init ex_t0 "owner" 0) lim_base.
Proof. vm_compute. reflexivity. Qed.
Example C84_case :
  (adm lim_base (BvCall ex_t0 "eve" (10 ^ 23 - 1) (BStorageDeposit None)),
   (w ← brun ex_fl (bw_init ex_t0 "owner" 0) lim_base; '(_, out) ← bcall_exec ex_fl ex_t0 (bw_c w) "eve" (10 ^ 23 + 5) (BStorageDeposit (Some "fay")); Some out),
   (w ← brun ex_fl (bw_init ex_t0 "owner" 0) lim_base; '(_, out) ← bcall_exec ex_fl ex_t0 (bw_c w) "eve" 7 (BStorageDeposit (Some "bob")); Some out),
   adm lim_base (BvCall ex_t0 "bob" 1 BStorageUnregister),
   (w ← brun ex_fl (bw_init ex_t0 "owner" 0) (lim_base ++ [BvCall ex_t0 "eve" (10 ^ 23 + 5) (BStorageDeposit (Some "fay"))]);
    '(_, out) ← bcall_exec ex_fl ex_t0 (bw_c w) "fay" 1 BStorageUnregister; Some out))
  = (Some false, Some [("eve", 5)], Some [("eve", 7)], Some false, Some [("eve", 10 ^ 23)]).
Proof. vm_compute. reflexivity. Qed.
(** C86: bob, whose stake is locked, unlocks 5000 in a seed with two farms and a booster *)
Lemma ex_fl_mono : mono_extra ex_fl.
Proof. intros p p' r L. cbn [ex_fl fl_extra]. apply N.div_le_mono; [lia|]. apply N.mul_le_mono_r, L. Qed.
Definition live_check (w : BWorld) (now : N) : option bool :=
  F ← b_farmers (bw_c w) !! "bob"; sd ← b_seeds (bw_c w) !! "lp"; r ← gen_ratios ex_fl (b_cfg (bw_c w)) "lp" F;
  Some ((bw_now w <=? now) && (now <? W64) && b_running (bw_c w) &&
    bool_decide (map_Forall (fun _ f => bf_daily f * (now - bf_at f) < W128 * NANOS_PER_DAY) (bs_farms sd)) &&
    bool_decide (map_Forall (fun _ (i : N * gmap SeedId N) => fst i <= 38) (c_boosters (b_cfg (bw_c w)))) &&
    bool_decide (map_Forall (fun _ n => n < W128) (bw_hold w)) &&
    (bs_power sd + power ex_fl (reboosted (stake_or_new F "lp") r) <? W128) &&
    (bs_slash sd <=? 10000) && (now <? k_unlock (stake_or_new F "lp")) && (5000 <=? k_locked (stake_or_new F "lp")) &&
    bool_decide (c_boosters (b_cfg (bw_c w)) !! "lp" = None)).
Example C86_case : exists w, ex_upto 13 = Some w /\ is_Some (bstep ex_fl w (BvCall (ex_t0 + 3 * ex_day) "bob" 1 (BForceUnlock "lp" 5000))).
Proof.
  assert (H : (fun w => live_check w (ex_t0 + 3 * ex_day)) <$> ex_upto 13 = Some (Some true)) by (vm_compute; reflexivity).
  apply fmap_Some in H as (w & E & H). exists w. split; [exact E|]. symmetry in H. unfold live_check in H.
  apply bind_Some in H as (F & HF & H). apply bind_Some in H as (sd & Hs & H). apply bind_Some in H as (r & Hr & H). injection H as H.
  rewrite !andb_true_iff in H. destruct H as ((((((((((B1 & B2) & B3) & B4) & B5) & B6) & B7) & B8) & B9) & B10) & B11).
  apply bool_decide_eq_true in B4, B5, B6, B11. apply N.leb_le in B1, B8, B10. apply N.ltb_lt in B2, B7, B9.
  apply (C86_unlock ex_fl w (ex_t0 + 3 * ex_day) "bob" "lp" F sd 5000).
  - constructor; [exact ex_fl_zero|eapply run_of, E|split; assumption|exact B3|exact HF|exact Hs|exact B4| |].
    + intros b info Hb _. exact (B5 b info Hb).
    + intros t. unfold shares_get. destruct (bw_hold w !! t) eqn:Et; [exact (B6 t _ Et)|vm_compute; reflexivity].
  - exact ex_fl_mono.
  - exact B11.
  - exact B8.
  - exact B9.
  - split; [lia|exact B10].
  - intros r' Hr'. rewrite Hr in Hr'. injection Hr' as <-. exact B7.
Qed.
Print Assumptions C83_access.
Print Assumptions C83_tokens.
Print Assumptions C83_settings.
Print Assumptions C83_settings_tokens.
Print Assumptions C83_limits.
Print Assumptions C83_terms.
Print Assumptions C83_terms_tokens.
Print Assumptions C83_new_farm.
Print Assumptions C84_near.
Print Assumptions C84_register.
Print Assumptions C84_unregister.
Print Assumptions C85_relock_refuted.
Print Assumptions C85_expired.
Print Assumptions C85_no_exit.
Print Assumptions C85_forfeit_refuted.
Print Assumptions C85_removed_by.
Print Assumptions C85_daily_stuck.
Print Assumptions C85_daily_refuted.
Print Assumptions C85_late_refuted.
Print Assumptions C85_slash_refuted.
Print Assumptions C85_slash.
