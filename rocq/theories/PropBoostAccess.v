(** * C83-C85: who may do what in the boost farming contract, its NEAR, and what farmers cannot rely on *)
From Verif Require Import Base BaseLemmas Boost SpecBoost BoostInv BoostCalls PropBoost PropBoostStake PropBoostFarm.

(** ** C83: access, pause and settings *)
Definition owner_call (x : bcall) : Prop :=
  match x with BSetOwner _ | BPause | BResume | BExtendOps _ | BRemoveOps _ | BRemoveFarm _ _ => True | _ => False end.
Definition operator_call (x : bcall) : Prop :=
  match x with
  | BCreateSeed _ _ _ _ | BCreateFarm _ _ _ _ | BCancelFarm _ _ | BModifyBooster _ _ | BModifyDaily _ _ _ | BModifyPolicy _ _
  | BModifyMaxFarms _ | BModifyDefaultSlash _ | BModifyMinDeposit _ _ | BModifyMinLock _ _ | BModifySlash _ _ => True
  | _ => False
  end.
(** the calls that work while the contract is paused *)
Definition paused_call (x : bcall) : Prop :=
  match x with BSetOwner _ | BPause | BResume | BExtendOps _ | BRemoveOps _ => True | _ => False end.
Definition deposit_for (x : bcall) (att : N) : Prop :=
  match x with BClaim _ => att = 0 | BStorageDeposit _ => True | _ => att = 1 end.

Lemma op_guard_Some c a att u : op_guard c a att = Some u -> att = 1 /\ (a = b_owner c \/ a ∈ b_ops c) /\ b_running c = true.
Proof.
  unfold op_guard, owner_or_op, is_owner. intros H. apply ensure_Some in H. apply andb_true_iff in H as [H H3].
  apply andb_true_iff in H as [H1 H2]. apply N.eqb_eq in H1. split; [exact H1|]. split; [|exact H3].
  apply orb_true_iff in H2 as [H2|H2]; [left; now apply String.eqb_eq|right; now apply bool_decide_eq_true in H2].
Qed.
Lemma owner_guard_Some c a att u : owner_guard c a att = Some u -> att = 1 /\ a = b_owner c.
Proof.
  unfold owner_guard, is_owner. intros H. apply ensure_Some in H. apply andb_true_iff in H as [H1 H2].
  apply N.eqb_eq in H1. apply String.eqb_eq in H2. auto.
Qed.
Theorem C83_access fl now c a att x c' out :
  bcall_exec fl now c a att x = Some (c', out) ->
  (owner_call x -> a = b_owner c) /\ (operator_call x -> a = b_owner c \/ a ∈ b_ops c) /\
  (b_running c = false -> paused_call x) /\ deposit_for x att.
Proof.
  intros H. unfold bcall_exec in H. apply bind_Some in H as (u & _ & H).
  destruct x; cbn [owner_call operator_call paused_call deposit_for].
  1-19: apply bind_Some in H as (c1 & Hc & H).
  1-3,5-12: match type of Hc with ?t = _ => let f := eval unfold create_seed, create_farm, cancel_farm, modify_booster, modify_daily,
      modify_locking_policy, modify_max_farms, modify_default_slash, modify_min_deposit, modify_min_lock, modify_slash in t in change (f = Some c1) in Hc end;
    apply bind_Some in Hc as (v & Hv & _); apply op_guard_Some in Hv as (E1 & E2 & E3);
    split; [tauto|]; split; [auto|]; split; [congruence|exact E1].
  - unfold remove_farm in Hc. apply bind_Some in Hc as (v & Hv & Hc). apply owner_guard_Some in Hv as [E1 E2].
    apply bind_Some in Hc as (v1 & Hv1 & _). apply ensure_Some in Hv1. split; [auto|]. split; [tauto|]. split; [congruence|exact E1].
  - unfold b_set_owner in Hc. apply bind_Some in Hc as (v & Hv & _). apply owner_guard_Some in Hv as [E1 E2]. tauto.
  - unfold b_set_state in Hc. apply bind_Some in Hc as (v & Hv & _). apply owner_guard_Some in Hv as [E1 E2]. tauto.
  - unfold b_set_state in Hc. apply bind_Some in Hc as (v & Hv & _). apply owner_guard_Some in Hv as [E1 E2]. tauto.
  - unfold extend_operators in Hc. apply bind_Some in Hc as (v & Hv & _). apply owner_guard_Some in Hv as [E1 E2]. tauto.
  - unfold remove_operators in Hc. apply bind_Some in Hc as (v & Hv & _). apply owner_guard_Some in Hv as [E1 E2]. tauto.
  - unfold lock_free_seed in Hc. apply bind_Some in Hc as (v & Hv & Hc). apply ensure_Some in Hv. apply N.eqb_eq in Hv.
    apply bind_Some in Hc as (v1 & Hv1 & _). apply ensure_Some in Hv1. split; [tauto|]. split; [tauto|]. split; [congruence|exact Hv].
  - unfold force_unlock in Hc. apply bind_Some in Hc as (v & Hv & Hc). apply ensure_Some in Hv. apply N.eqb_eq in Hv.
    apply bind_Some in Hc as (v1 & Hv1 & _). apply ensure_Some in Hv1. split; [tauto|]. split; [tauto|]. split; [congruence|exact Hv].
  - apply bind_Some in H as (v & Hv & H). apply ensure_Some in Hv. apply N.eqb_eq in Hv. apply bind_Some in H as (c1 & Hc & H).
    unfold claim_reward_by_seed in Hc. apply bind_Some in Hc as (v1 & Hv1 & _). apply ensure_Some in Hv1.
    split; [tauto|]. split; [tauto|]. split; [congruence|exact Hv].
  - unfold b_storage_deposit in H. apply bind_Some in H as (v1 & Hv1 & _). apply ensure_Some in Hv1.
    split; [tauto|]. split; [tauto|]. split; [congruence|tauto].
  - discriminate.
  - unfold b_storage_unregister in H. apply bind_Some in H as (v1 & Hv1 & _). apply ensure_Some in Hv1.
    apply andb_true_iff in Hv1 as [V1 V2]. apply N.eqb_eq in V1. split; [tauto|]. split; [tauto|]. split; [congruence|exact V1].
Qed.
(** No tokens are accepted while the contract is paused, and MFT tokens are never accepted as rewards. *)
Theorem C83_tokens fl w now mft asset sender amount msg w' :
  bstep fl w (BvToken now mft asset sender amount msg) = Some w' ->
  b_running (bw_c w) = true /\
  match msg with
  | MReward s i => mft = false /\ exists sd f, b_seeds (bw_c w) !! s = Some sd /\ bs_farms sd !! i = Some f /\ bf_token f = asset
  | _ => exists F sd, b_farmers (bw_c w) !! sender = Some F /\ b_seeds (bw_c w) !! asset = Some sd /\ bs_min sd <= amount
  end.
Proof.
  intros H. unfold bstep in H. apply bind_Some in H as (u & _ & H). apply bind_Some in H as (u1 & _ & H). apply bind_Some in H as (u2 & _ & H).
  apply bind_Some in H as (c' & Hc & _). unfold on_transfer in Hc. apply bind_Some in Hc as (u3 & Hu & Hc). apply ensure_Some in Hu.
  split; [exact Hu|]. destruct msg as [|dur|s i].
  - unfold stake_free_seed in Hc. apply bind_Some in Hc as (F & HF & Hc). apply bind_Some in Hc as (sd & Hg & Hc).
    apply bind_Some in Hc as (u4 & Hm & _). apply ensure_Some in Hm. apply N.leb_le in Hm.
    unfold get_seed, seed_update in Hg. apply bind_Some in Hg as (sd0 & Hs0 & Hg). apply bind_Some in Hg as (m & _ & Hg). injection Hg as <-.
    exists F, sd0. auto.
  - unfold stake_lock_seed in Hc. apply bind_Some in Hc as (F & HF & Hc). apply bind_Some in Hc as (sd & Hg & Hc).
    apply bind_Some in Hc as (u4 & Hm & _). apply ensure_Some in Hm. apply N.leb_le in Hm.
    unfold get_seed, seed_update in Hg. apply bind_Some in Hg as (sd0 & Hs0 & Hg). apply bind_Some in Hg as (m & _ & Hg). injection Hg as <-.
    exists F, sd0. auto.
  - apply bind_Some in Hc as (u4 & Hm & Hc). apply ensure_Some in Hm. split; [now destruct mft|].
    unfold deposit_reward in Hc. apply bind_Some in Hc as (sd & Hg & Hc). apply bind_Some in Hc as (f & Hf & Hc). apply bind_Some in Hc as (f' & Ha & _).
    unfold add_reward in Ha. apply bind_Some in Ha as (u5 & Ht & _). apply ensure_Some in Ht. apply String.eqb_eq in Ht.
    unfold get_seed in Hg. apply bind_Some in Hg as (sd0 & Hs0 & Hu0). destruct (update_rel _ _ _ Hu0) as [_ R].
    destruct (R i f Hf) as (f0 & Hf0 & G). exists sd0, f0. split; [exact Hs0|]. split; [exact Hf0|]. rewrite <- (gr_token _ _ _ G). exact Ht.
Qed.
(** Owner, operators, pause and configuration change only through their own calls, and to what the caller gave. *)
Definition owner_after (x : bcall) (o : AccountId) : AccountId := match x with BSetOwner o' => o' | _ => o end.
Definition running_after (x : bcall) (r : bool) : bool := match x with BPause => false | BResume => true | _ => r end.
Definition ops_after (x : bcall) (o : gset AccountId) : gset AccountId :=
  match x with BExtendOps l => o ∪ list_to_set l | BRemoveOps l => o ∖ list_to_set l | _ => o end.
Definition cfg_after (x : bcall) (g : BConfig) : BConfig :=
  match x with
  | BModifyBooster b i => mkBConfig (c_slash g) (<[b := i]> (c_boosters g)) (c_max_bfarms g) (c_max_farms g) (c_max_dur g) (c_max_mult g)
  | BModifyPolicy d m => mkBConfig (c_slash g) (c_boosters g) (c_max_bfarms g) (c_max_farms g) d m
  | BModifyMaxFarms n => mkBConfig (c_slash g) (c_boosters g) (c_max_bfarms g) n (c_max_dur g) (c_max_mult g)
  | BModifyDefaultSlash r => mkBConfig r (c_boosters g) (c_max_bfarms g) (c_max_farms g) (c_max_dur g) (c_max_mult g)
  | _ => g
  end.
Lemma remove_ops_Some l : forall o o', remove_ops l o = Some o' -> o' = o ∖ list_to_set l.
Proof.
  induction l as [|x l IH]; intros o o' H; cbn [remove_ops] in H.
  - injection H as <-. cbn. set_solver.
  - apply bind_Some in H as (u & _ & H). apply IH in H as ->. cbn. set_solver.
Qed.
Theorem C83_settings fl now c a att x c' out :
  bcall_exec fl now c a att x = Some (c', out) ->
  b_owner c' = owner_after x (b_owner c) /\ b_running c' = running_after x (b_running c) /\
  b_ops c' = ops_after x (b_ops c) /\ b_cfg c' = cfg_after x (b_cfg c).
Proof.
  intros H. unfold bcall_exec in H. apply bind_Some in H as (u & _ & H).
  assert (Fr : forall d, frame c d -> b_owner d = b_owner c /\ b_running d = b_running c /\ b_ops d = b_ops c /\ b_cfg d = b_cfg c).
  { intros d []. auto. }
  destruct x; cbn [owner_after running_after ops_after cfg_after].
  20: apply bind_Some in H as (v & _ & H).
  1-20: apply bind_Some in H as (c1 & Hc & H); injection H as <- <-.
  - unfold create_seed in Hc. apply bind_Some in Hc as (v & _ & Hc). destruct (b_seeds c !! s); [discriminate|]. injection Hc as <-. auto.
  - unfold create_farm in Hc. inv; subst. auto.
  - unfold cancel_farm in Hc. inv; subst. auto.
  - unfold remove_farm in Hc. inv; subst. auto.
  - unfold modify_booster in Hc. inv; subst. auto.
  - unfold modify_daily in Hc. inv; subst. auto.
  - unfold modify_locking_policy in Hc. inv; subst. auto.
  - unfold modify_max_farms in Hc. inv; subst. auto.
  - unfold modify_default_slash in Hc. inv; subst. auto.
  - unfold modify_min_deposit in Hc. inv; subst. auto.
  - unfold modify_min_lock in Hc. inv; subst. auto.
  - unfold modify_slash in Hc. inv; subst. auto.
  - unfold b_set_owner in Hc. inv; subst. auto.
  - unfold b_set_state in Hc. inv; subst. auto.
  - unfold b_set_state in Hc. inv; subst. auto.
  - unfold extend_operators in Hc. inv; subst. cbn. split; [reflexivity|]. split; [reflexivity|]. split; [|reflexivity]. set_solver.
  - unfold remove_operators in Hc. apply bind_Some in Hc as (v & _ & Hc). apply bind_Some in Hc as (o & Ho & Hc). injection Hc as <-.
    apply remove_ops_Some in Ho as ->. auto.
  - apply Fr. eapply lock_free_frame, Hc.
  - apply Fr. eapply force_unlock_frame, Hc.
  - apply Fr. eapply claim_frame, Hc.
  - unfold b_storage_deposit in H. apply bind_Some in H as (v & _ & H). destruct (b_farmers c !! default a acc); inv; subst; auto.
  - discriminate.
  - unfold b_storage_unregister in H. apply bind_Some in H as (v & _ & H). destruct (b_farmers c !! a); inv; subst; auto.
Qed.
Theorem C83_settings_tokens fl w e w' :
  bstep fl w e = Some w' -> (forall now a att x, e <> BvCall now a att x) -> frame (bw_c w) (bw_c w').
Proof.
  intros H Hn. unfold bstep in H. destruct e as [now a att x|now mft asset sender amount msg|asset amount].
  - exfalso. eapply Hn. reflexivity.
  - apply bind_Some in H as (u & _ & H). apply bind_Some in H as (u1 & _ & H). apply bind_Some in H as (u2 & _ & H).
    apply bind_Some in H as (c' & Hc & H). injection H as <-. cbn [bw_c].
    unfold on_transfer in Hc. apply bind_Some in Hc as (u3 & _ & Hc). destruct msg as [|dur|s i].
    + eapply stake_free_frame, Hc.
    + eapply stake_lock_frame, Hc.
    + apply bind_Some in Hc as (u4 & _ & Hc). unfold deposit_reward in Hc. inv; subst. constructor; reflexivity.
  - injection H as <-. apply frame_refl.
Qed.

(** The limits the contract keeps on its settings. *)
Theorem C83_limits fl w :
  zero_extra fl -> breach fl w ->
  10000 < c_max_mult (b_cfg (bw_c w)) /\
  (forall b info, c_boosters (b_cfg (bw_c w)) !! b = Some info -> snd info !! b = None) /\
  c_slash (b_cfg (bw_c w)) < 10000.
Proof.
  intros Z H. pose proof (wb_inv _ _ (breach_inv fl w Z H)) as I.
  split; [exact (bi_mult _ _ _ I)|]. split; [exact (bi_self _ _ _ I)|]. clear I.
  induction H as [now owner near|w e w' Hw IH Hs]; [vm_compute; reflexivity|].
  destruct e as [now a att x|now mft asset sender amount msg|asset amount].
  - unfold bstep in Hs. apply bind_Some in Hs as (u & _ & Hs). apply bind_Some in Hs as ([c' out] & Hc & Hs).
    apply bind_Some in Hs as (n & _ & Hs). injection Hs as <-. cbn [bw_c].
    destruct (C83_settings _ _ _ _ _ _ _ _ Hc) as (_ & _ & _ & ->). destruct x; try exact IH.
    cbn [cfg_after c_slash]. unfold bcall_exec in Hc. apply bind_Some in Hc as (v & _ & Hc). apply bind_Some in Hc as (c1 & Hc & _).
    unfold modify_default_slash in Hc. inv; subst. bool_inv. assumption.
  - rewrite (fr_cfg _ _ (C83_settings_tokens _ _ _ _ Hs ltac:(discriminate))). exact IH.
  - rewrite (fr_cfg _ _ (C83_settings_tokens _ _ _ _ Hs ltac:(discriminate))). exact IH.
Qed.

(** The terms of the seeds - decimals, least deposit, penalty and least locking time - are fixed when a seed is created
    and change afterwards only through the call for that term, only for the seed it names, and to what the caller gave. *)
Definition terms (sd : BSeed) : N * N * N * N := (bs_decimal sd, bs_min sd, bs_slash sd, bs_minlock sd).
Definition all_terms (c : BState) : gmap SeedId (N * N * N * N) := terms <$> b_seeds c.
Definition terms_after (x : bcall) (g : BConfig) (m : gmap SeedId (N * N * N * N)) : gmap SeedId (N * N * N * N) :=
  match x with
  | BCreateSeed s d mn ml => <[s := (d, default (10 ^ 18) mn, c_slash g, default (30 * 24 * 3600) ml)]> m
  | BModifyMinDeposit s v => alter (fun '(d, _, r, l) => (d, v, r, l)) s m
  | BModifySlash s v => alter (fun '(d, n, _, l) => (d, n, v, l)) s m
  | BModifyMinLock s v => alter (fun '(d, n, r, _) => (d, n, r, v)) s m
  | _ => m
  end.
Lemma get_terms now c s sd : get_seed now c s = Some sd -> all_terms c !! s = Some (terms sd).
Proof.
  unfold get_seed, seed_update. intros H. apply bind_Some in H as (sd0 & Hs & H). apply bind_Some in H as (m & _ & H). injection H as <-.
  unfold all_terms. rewrite lookup_fmap, Hs. reflexivity.
Qed.
Lemma put_terms c s sd : all_terms c !! s = Some (terms sd) -> terms <$> <[s := sd]> (b_seeds c) = all_terms c.
Proof. intros H. rewrite fmap_insert. apply insert_id. exact H. Qed.
Lemma claim_terms fl g s F sd F' sd' : do_claim fl g s F sd = Some (F', sd') -> terms sd' = terms sd.
Proof.
  unfold do_claim. intros H. apply bind_Some in H as (k & _ & H). inv; subst. reflexivity.
Qed.
Lemma update_seeds_terms fl now l : forall c F c' F', update_seeds fl now l c F = Some (c', F') -> all_terms c' = all_terms c.
Proof.
  induction l as [|s l IH]; intros c F c' F' H; cbn [update_seeds] in H; [injection H as <- <-; reflexivity|].
  destruct (b_stakes F !! s); [|eauto].
  apply bind_Some in H as (sd & Hg & H). apply bind_Some in H as ([F1 sd1] & Hc & H). apply IH in H as ->.
  unfold all_terms at 1. cbn [set_seed set_seeds b_seeds]. apply put_terms. rewrite (claim_terms _ _ _ _ _ _ _ Hc). eapply get_terms, Hg.
Qed.
Lemma stake_op_terms fl now c a s F sd op c' sl :
  get_seed now c s = Some sd -> stake_op fl now c a s F sd op = Some (c', sl) -> all_terms c' = all_terms c.
Proof.
  intros Hg H. unfold stake_op in H. apply bind_Some in H as ([F1 sd1] & Hc & H). apply bind_Some in H as (k & _ & H).
  apply bind_Some in H as ([[[k' am] pw] slash] & _ & H). apply bind_Some in H as ([c2 F2] & Hu & H). injection H as <- <-.
  assert (E : all_terms c2 = all_terms c).
  { unfold update_impacted in Hu. destruct (c_boosters (b_cfg c) !! s); [eapply update_seeds_terms, Hu|injection Hu as <- <-; reflexivity]. }
  unfold all_terms at 1. cbn [set_seed set_seeds set_farmer set_farmers b_seeds]. rewrite <- E. apply put_terms. rewrite E.
  change (terms (with_total sd1 am pw)) with (terms sd1). rewrite (claim_terms _ _ _ _ _ _ _ Hc). eapply get_terms, Hg.
Qed.
Theorem C83_terms fl now c a att x c' out :
  bcall_exec fl now c a att x = Some (c', out) ->
  all_terms c' = terms_after x (b_cfg c) (all_terms c) /\
  (forall s d mn ml, x = BCreateSeed s d mn ml -> all_terms c !! s = None).
Proof.
  intros H. unfold bcall_exec in H. apply bind_Some in H as (u & _ & H).
  assert (Same : forall d, b_seeds d = b_seeds c -> all_terms d = all_terms c) by (intros d E; unfold all_terms; now rewrite E).
  assert (Put : forall s sd sd' d, get_seed now c s = Some sd -> b_seeds d = <[s := sd']> (b_seeds c) -> terms sd' = terms sd ->
                all_terms d = all_terms c).
  { intros s sd sd' d Hg E T. unfold all_terms at 1. rewrite E. apply put_terms. rewrite T. eapply get_terms, Hg. }
  assert (Alt : forall s sd sd' d f, get_seed now c s = Some sd -> b_seeds d = <[s := sd']> (b_seeds c) -> terms sd' = f (terms sd) ->
                all_terms d = alter f s (all_terms c)).
  { intros s sd sd' d f Hg E T. unfold all_terms at 1. rewrite E, fmap_insert, T.
    apply map_eq. intros s1. pose proof (get_terms _ _ _ _ Hg) as G. destruct (decide (s = s1)) as [<-|Hne].
    - rewrite lookup_insert, lookup_alter, G. reflexivity.
    - rewrite lookup_insert_ne, lookup_alter_ne by done. reflexivity. }
  destruct x; cbn [terms_after]; (split; [|try discriminate]).
  1-2: apply bind_Some in H as (c1 & Hc & H); injection H as <- <-; unfold create_seed in Hc; apply bind_Some in Hc as (v & _ & Hc);
       destruct (b_seeds c !! s) eqn:Es; [discriminate|]; injection Hc as <-.
  - unfold all_terms at 1. cbn [set_seed set_seeds b_seeds]. rewrite fmap_insert. reflexivity.
  - intros s1 d mn ml E. injection E as <- <- <- <-. unfold all_terms. rewrite lookup_fmap, Es. reflexivity.
  - apply bind_Some in H as (c1 & Hc & H); injection H as <- <-. unfold create_farm in Hc. apply bind_Some in Hc as (v & _ & Hc).
    apply bind_Some in Hc as (sd & Hg & Hc). inv; subst. eapply Put; [exact Hg|reflexivity|reflexivity].
  - apply bind_Some in H as (c1 & Hc & H); injection H as <- <-. unfold cancel_farm in Hc. apply bind_Some in Hc as (v & _ & Hc).
    apply bind_Some in Hc as (sd & Hg & Hc). inv; subst. eapply Put; [exact Hg|reflexivity|reflexivity].
  - apply bind_Some in H as (c1 & Hc & H); injection H as <- <-. unfold remove_farm in Hc. apply bind_Some in Hc as (v & _ & Hc).
    apply bind_Some in Hc as (v1 & _ & Hc). apply bind_Some in Hc as (sd & Hg & Hc). inv; subst. eapply Put; [exact Hg|reflexivity|reflexivity].
  - apply bind_Some in H as (c1 & Hc & H); injection H as <- <-. apply Same. unfold modify_booster in Hc. inv; subst. reflexivity.
  - apply bind_Some in H as (c1 & Hc & H); injection H as <- <-. unfold modify_daily in Hc. apply bind_Some in Hc as (v & _ & Hc).
    apply bind_Some in Hc as (sd & Hg & Hc). inv; subst. eapply Put; [exact Hg|reflexivity|reflexivity].
  - apply bind_Some in H as (c1 & Hc & H); injection H as <- <-. apply Same. unfold modify_locking_policy in Hc. inv; subst. reflexivity.
  - apply bind_Some in H as (c1 & Hc & H); injection H as <- <-. apply Same. unfold modify_max_farms in Hc. inv; subst. reflexivity.
  - apply bind_Some in H as (c1 & Hc & H); injection H as <- <-. apply Same. unfold modify_default_slash in Hc. inv; subst. reflexivity.
  - apply bind_Some in H as (c1 & Hc & H); injection H as <- <-. unfold modify_min_deposit in Hc. apply bind_Some in Hc as (v & _ & Hc).
    apply bind_Some in Hc as (sd & Hg & Hc). injection Hc as <-. eapply Alt; [exact Hg|reflexivity|reflexivity].
  - apply bind_Some in H as (c1 & Hc & H); injection H as <- <-. unfold modify_min_lock in Hc. apply bind_Some in Hc as (v & _ & Hc).
    apply bind_Some in Hc as (v1 & _ & Hc). apply bind_Some in Hc as (sd & Hg & Hc). injection Hc as <-. eapply Alt; [exact Hg|reflexivity|reflexivity].
  - apply bind_Some in H as (c1 & Hc & H); injection H as <- <-. unfold modify_slash in Hc. apply bind_Some in Hc as (v & _ & Hc).
    apply bind_Some in Hc as (sd & Hg & Hc). injection Hc as <-. eapply Alt; [exact Hg|reflexivity|reflexivity].
  - apply bind_Some in H as (c1 & Hc & H); injection H as <- <-. apply Same. unfold b_set_owner in Hc. inv; subst. reflexivity.
  - apply bind_Some in H as (c1 & Hc & H); injection H as <- <-. apply Same. unfold b_set_state in Hc. inv; subst. reflexivity.
  - apply bind_Some in H as (c1 & Hc & H); injection H as <- <-. apply Same. unfold b_set_state in Hc. inv; subst. reflexivity.
  - apply bind_Some in H as (c1 & Hc & H); injection H as <- <-. apply Same. unfold extend_operators in Hc. inv; subst. reflexivity.
  - apply bind_Some in H as (c1 & Hc & H); injection H as <- <-. apply Same. unfold remove_operators in Hc. inv; subst. reflexivity.
  - apply bind_Some in H as (c1 & Hc & H); injection H as <- <-. unfold lock_free_seed in Hc.
    apply bind_Some in Hc as (u3 & _ & Hc). apply bind_Some in Hc as (u4 & _ & Hc).
    apply bind_Some in Hc as (F & HF & Hc). apply bind_Some in Hc as (sd & Hg & Hc). apply bind_Some in Hc as (u5 & _ & Hc).
    apply bind_Some in Hc as ([c2 sl] & Hop & Hc). injection Hc as ->. eapply stake_op_terms; eauto.
  - apply bind_Some in H as (c1 & Hc & H); injection H as <- <-. unfold force_unlock in Hc.
    apply bind_Some in Hc as (u3 & _ & Hc). apply bind_Some in Hc as (u4 & _ & Hc).
    apply bind_Some in Hc as (F & HF & Hc). apply bind_Some in Hc as (sd & Hg & Hc).
    apply bind_Some in Hc as ([c2 sl] & Hop & Hc). apply bind_Some in Hc as (m & Hm & Hc). injection Hc as <-.
    change (all_terms (set_slashed c2 m)) with (all_terms c2). eapply stake_op_terms; eauto.
  - apply bind_Some in H as (v & _ & H). apply bind_Some in H as (c1 & Hc & H); injection H as <- <-.
    unfold claim_reward_by_seed in Hc. apply bind_Some in Hc as (u3 & _ & Hc).
    apply bind_Some in Hc as (F & HF & Hc). apply bind_Some in Hc as (sd & Hg & Hc).
    apply bind_Some in Hc as ([F' sd'] & Hcl & Hc). injection Hc as <-.
    eapply (Put s sd sd'); [exact Hg|reflexivity|eapply claim_terms, Hcl].
  - apply Same. unfold b_storage_deposit in H. apply bind_Some in H as (v & _ & H).
    destruct (b_farmers c !! default a acc); inv; subst; reflexivity.
  - discriminate.
  - apply Same. unfold b_storage_unregister in H. apply bind_Some in H as (v & _ & H).
    destruct (b_farmers c !! a); inv; subst; reflexivity.
Qed.
Theorem C83_terms_tokens fl w e w' :
  bstep fl w e = Some w' -> (forall now a att x, e <> BvCall now a att x) -> all_terms (bw_c w') = all_terms (bw_c w).
Proof.
  intros H Hn. unfold bstep in H. destruct e as [now a att x|now mft asset sender amount msg|asset amount].
  - exfalso. eapply Hn. reflexivity.
  - apply bind_Some in H as (u & _ & H). apply bind_Some in H as (u1 & _ & H). apply bind_Some in H as (u2 & _ & H).
    apply bind_Some in H as (c' & Hc & H). injection H as <-. cbn [bw_c].
    unfold on_transfer in Hc. apply bind_Some in Hc as (u3 & _ & Hc). destruct msg as [|dur|s i].
    + unfold stake_free_seed in Hc.
      apply bind_Some in Hc as (F & HF & Hc). apply bind_Some in Hc as (sd & Hg & Hc). apply bind_Some in Hc as (u4 & _ & Hc).
      apply bind_Some in Hc as ([c1 sl] & Hop & Hc). injection Hc as ->. eapply stake_op_terms; eauto.
    + unfold stake_lock_seed in Hc.
      apply bind_Some in Hc as (F & HF & Hc). apply bind_Some in Hc as (sd & Hg & Hc). apply bind_Some in Hc as (u4 & _ & Hc).
      apply bind_Some in Hc as (u5 & _ & Hc). apply bind_Some in Hc as ([c1 sl] & Hop & Hc). injection Hc as ->. eapply stake_op_terms; eauto.
    + apply bind_Some in Hc as (u4 & _ & Hc). unfold deposit_reward in Hc.
      apply bind_Some in Hc as (sd & Hg & Hc). apply bind_Some in Hc as (f & Hf & Hc). apply bind_Some in Hc as (g & Ha & Hc). injection Hc as <-.
      unfold all_terms at 1. cbn [set_seed set_seeds b_seeds]. apply put_terms.
      change (terms (with_farms sd (<[i := g]> (bs_farms sd)))) with (terms sd). eapply get_terms, Hg.
  - injection H as <-. reflexivity.
Qed.
(** A new farm starts empty, under the next number of its seed, with the token, start and daily reward given; the other
    farms of the seed stay. *)
Theorem C83_new_farm fl now c a att s t st d c' out :
  bcall_exec fl now c a att (BCreateFarm s t st d) = Some (c', out) ->
  exists sd sd', get_seed now c s = Some sd /\ b_seeds c' !! s = Some sd' /\ bs_next sd' = bs_next sd + 1 /\
    bs_farms sd' = <[bs_next sd := mkBFarm t st d 0 (st * 10 ^ 9) 0 0 0 0]> (bs_farms sd) /\
    b_farm_count c' = b_farm_count c + 1 /\ N.of_nat (size (bs_farms sd)) < c_max_farms (b_cfg c).
Proof.
  intros H. unfold bcall_exec in H. apply bind_Some in H as (u & _ & H). apply bind_Some in H as (c1 & Hc & H). injection H as <- <-.
  unfold create_farm in Hc. apply bind_Some in Hc as (v & _ & Hc). apply bind_Some in Hc as (sd & Hg & Hc).
  apply bind_Some in Hc as (v1 & Hv & Hc). apply ensure_Some in Hv. apply N.ltb_lt in Hv.
  apply bind_Some in Hc as (nx & Hx & Hc). apply bind_Some in Hc as (n & Hn & Hc). apply cadd_Some in Hx as [-> _]. apply cadd_Some in Hn as [-> _].
  apply bind_Some in Hc as (v2 & _ & Hc). injection Hc as <-.
  exists sd. eexists. split; [exact Hg|]. split; [apply lookup_insert|]. cbn. auto.
Qed.

(** ** C84: NEAR *)
(** Registering costs the fixed amount, the rest comes back; depositing for a registered account gives everything
    back; unregistering pays the fixed amount to whoever paid the registration.  No other call sends NEAR. *)
Definition near_out (c : BState) (a : AccountId) (att : N) (x : bcall) : list (AccountId * N) :=
  let gift (p : AccountId) (n : N) := if n =? 0 then [] else [(p, n)] in
  match x with
  | BStorageDeposit acc => gift a (match b_farmers c !! default a acc with Some _ => att | None => att - 10 ^ 23 end)
  | BStorageUnregister => match b_farmers c !! a with Some F => [(b_sponsor F, 10 ^ 23)] | None => [] end
  | _ => []
  end.
Theorem C84_near fl now c a att x c' out :
  bcall_exec fl now c a att x = Some (c', out) -> out = near_out c a att x.
Proof.
  intros H. unfold bcall_exec in H. apply bind_Some in H as (u & _ & H).
  assert (G : forall n : N, (if 0 <? n then [(a, n)] else []) = (if n =? 0 then [] else [(a, n)])) by (intros [|]; reflexivity).
  destruct x; cbn [near_out].
  20: apply bind_Some in H as (v & _ & H).
  1-20: apply bind_Some in H as (c1 & Hc & H); injection H as <- <-; reflexivity.
  - unfold b_storage_deposit in H. apply bind_Some in H as (v & _ & H). destruct (b_farmers c !! default a acc).
    + injection H as <- <-. apply G.
    + apply bind_Some in H as (r & Hr & H). apply bind_Some in H as (n & Hn & H). injection H as <- <-.
      apply csub_Some in Hr as [-> _]. apply G.
  - discriminate.
  - unfold b_storage_unregister in H. apply bind_Some in H as (v & _ & H). destruct (b_farmers c !! a); inv; subst; reflexivity.
Qed.
(** Who is registered: anybody can register anybody for at least the fixed amount; unregistering needs an empty record. *)
Theorem C84_register fl now c a att acc :
  b_running c = true -> b_farmer_count c + 1 < W64 -> b_farmers c !! default a acc = None ->
  (10 ^ 23 <= att <-> exists c' out, bcall_exec fl now c a att (BStorageDeposit acc) = Some (c', out)) /\
  (forall c' out, bcall_exec fl now c a att (BStorageDeposit acc) = Some (c', out) ->
     b_farmers c' !! default a acc = Some (mkBFarmer a ∅ ∅)).
Proof.
  intros Hr Hc Hn. unfold bcall_exec, b_storage_deposit. rewrite Hr. cbn [decoded ensure mbind option_bind]. rewrite Hn.
  change (10 ^ 23) with STORAGE_BALANCE_MIN_BOUND. split; [split|].
  - intros Ha. rewrite csub_intro, cadd_intro by assumption. cbn [mbind option_bind]. eauto.
  - intros (c' & out & H). apply bind_Some in H as (r & H & _). apply csub_Some in H. apply H.
  - intros c' out H. apply bind_Some in H as (r & _ & H). apply bind_Some in H as (n & _ & H). injection H as <- <-. apply lookup_insert.
Qed.
(** The sponsor named in a record is whoever paid, so over any history the NEAR held covers all records (C79_near),
    and every record can be given up for its fixed amount as soon as it is empty. *)
Theorem C84_unregister fl w now a F :
  zero_extra fl -> breach fl w -> bw_now w <= now -> now < W64 -> b_running (bw_c w) = true ->
  b_farmers (bw_c w) !! a = Some F ->
  (b_rewards F = ∅ /\ b_stakes F = ∅ <-> is_Some (bstep fl w (BvCall now a 1 BStorageUnregister))).
Proof.
  intros Z Hw T1 T2 Hr HF. destruct (breach_inv fl w Z Hw) as [I _ Ne]. split.
  - intros [R0 S0]. destruct (farmer_gone_kept fl (bw_now w) (bw_c w) a F I HF R0 S0) as [Pos _].
    unfold bstep, b_tick. replace ((bw_now w <=? now) && (now <? W64)) with true
      by (symmetry; apply andb_true_iff; split; [now apply N.leb_le|now apply N.ltb_lt]).
    cbn [ensure mbind option_bind]. unfold bcall_exec, b_storage_unregister. cbn [decoded ensure mbind option_bind].
    rewrite Hr. cbn [N.eqb Pos.eqb andb ensure mbind option_bind]. rewrite HF.
    rewrite bool_decide_eq_true_2 by exact R0. rewrite bool_decide_eq_true_2 by exact S0. cbn [andb ensure mbind option_bind].
    rewrite csub_intro by lia. cbn [mbind option_bind].
    rewrite csub_intro; [eauto|]. unfold sent. cbn [fmap list_fmap lsum snd]. unfold near_due in Ne.
    assert (STORAGE_BALANCE_MIN_BOUND * 1 <= STORAGE_BALANCE_MIN_BOUND * b_farmer_count (bw_c w)) by (apply N.mul_le_mono_l; lia). lia.
  - intros [w' H]. unfold bstep in H. apply bind_Some in H as (u & _ & H). apply bind_Some in H as ([c' out] & Hc & _).
    unfold bcall_exec, b_storage_unregister in Hc. apply bind_Some in Hc as (v & _ & Hc). apply bind_Some in Hc as (v1 & _ & Hc).
    rewrite HF in Hc. apply bind_Some in Hc as (v2 & Hv & _). apply ensure_Some in Hv. bool_inv. auto.
Qed.
