(** * Every call of the boost farming contract keeps the invariant *)
From Verif Require Import Base BaseLemmas Boost SpecBoost BoostInv.

(** ** Locks *)
Lemma compute_x_Some g amount dur x :
  compute_x g amount dur = Some x ->
  amount <= x /\ (amount = 0 -> x = 0) /\ 0 < c_max_dur g /\ MIN_LOCKING_REWARD_RATIO <= c_max_mult g /\
  x = amount + amount * ((c_max_mult g - MIN_LOCKING_REWARD_RATIO) * b_nano dur) / (b_nano (c_max_dur g) * MIN_LOCKING_REWARD_RATIO).
Proof.
  unfold compute_x. intros; inv; subst. apply u128_ratio_Some in Hx2 as (-> & Hd & _).
  split; [dlia|]. split.
  { intros ->. rewrite N.mul_0_l, div_zero_l. reflexivity. }
  split; [unfold b_nano in Hd; destruct (c_max_dur g); [cbn in Hd|]; lia|]. auto.
Qed.

Lemma relock_Some now g k amount dur k' :
  relock now g k amount dur = Some k' -> stake_ok now k ->
  stake_ok now k' /\ k_locked k' = k_locked k + amount /\ k_free k' = k_free k /\ k_rps k' = k_rps k /\
  k_unlock k' = now + b_nano dur /\ k_dur k' = dur /\ k_ratios k' = k_ratios k /\
  (now < k_unlock k -> k_x k + amount <= k_x k' /\ k_unlock k <= k_unlock k').
Proof.
  unfold relock, stake_ok. intros H (O1 & O2 & O3 & O4). inv; subst. cbn [with_lock k_locked k_free k_rps k_unlock k_dur k_ratios k_x].
  destruct ((0 <? k_unlock k) && (now <? k_unlock k)) eqn:B.
  - inv; subst. bool_inv.
    repeat match goal with E : compute_x _ _ _ = Some _ |- _ => apply compute_x_Some in E as (? & ? & _) end.
    repeat split; auto; try lia.
  - inv; subst.
    repeat match goal with E : compute_x _ _ _ = Some _ |- _ => apply compute_x_Some in E as (? & ? & _) end.
    assert (C : k_unlock k <= now).
    { apply andb_false_iff in B as [B|B]; bool_inv; lia. }
    repeat split; auto; try lia.
Qed.

Lemma add_free_good fl now amount :
  good_op fl now (fun sd1 k =>
    '(k', inc) ← add_free fl k amount;
    am ← cadd W128 (bs_amount sd1) amount; pw ← cadd W128 (bs_power sd1) inc; Some (k', am, pw, 0)).
Proof.
  intros sd k k' am pw sl H Ok. unfold add_free in H. inv; subst.
  repeat match goal with E : seed_power _ _ = Some _ |- _ => apply seed_power_Some in E as (-> & _) end.
  cbn [with_free k_rps]. split; [done|]. split; [exact Ok|]. unfold staked; cbn [with_free k_free k_locked]. split; lia.
Qed.

Lemma add_lock_good fl now g amount dur :
  good_op fl now (fun sd1 k =>
    '(k', inc) ← add_lock fl now g k amount dur;
    am ← cadd W128 (bs_amount sd1) amount; pw ← cadd W128 (bs_power sd1) inc; Some (k', am, pw, 0)).
Proof.
  intros sd k k' am pw sl H Ok. unfold add_lock in H. inv; subst.
  repeat match goal with E : seed_power _ _ = Some _ |- _ => apply seed_power_Some in E as (-> & _) end.
  match goal with E : relock _ _ _ _ _ = Some _ |- _ => apply relock_Some in E as (R1 & R2 & R3 & R4 & _); [|exact Ok] end.
  split; [done|]. split; [exact R1|]. unfold staked. rewrite R2, R3. split; lia.
Qed.

Lemma free_to_lock_good fl now g amount dur :
  good_op fl now (fun sd1 k =>
    '(k', inc) ← free_to_lock fl now g k (default (k_free k) amount) dur;
    pw ← cadd W128 (bs_power sd1) inc; Some (k', bs_amount sd1, pw, 0)).
Proof.
  intros sd k k' am pw sl H Ok. unfold free_to_lock in H. inv; subst.
  repeat match goal with E : seed_power _ _ = Some _ |- _ => apply seed_power_Some in E as (-> & _) end.
  match goal with E : relock _ _ _ _ _ = Some _ |- _ => apply relock_Some in E as (R1 & R2 & R3 & R4 & _); [|exact Ok] end.
  cbn [with_free k_free k_locked k_rps] in *.
  split; [done|]. split; [exact R1|]. unfold staked. rewrite R2, R3. split; lia.
Qed.

(** what unlocking before the end of the lock does *)
Lemma unlock_slashed_Some fl now k amount rate k' dec slash :
  unlock_slashed fl now k amount rate = Some (k', dec, slash) -> stake_ok now k ->
  now < k_unlock k /\ 0 < amount <= k_locked k /\ 0 < b_nano (k_dur k) /\
  slash = amount * rate / BP_DENOM * (k_unlock k - now) / b_nano (k_dur k) /\ slash <= amount /\
  k_free k' = k_free k + (amount - slash) /\ k_locked k' = k_locked k - amount /\
  k_x k' = k_x k * (k_locked k - amount) / k_locked k /\
  k_rps k' = k_rps k /\ k_ratios k' = k_ratios k /\
  (amount < k_locked k -> k_unlock k' = k_unlock k /\ k_dur k' = k_dur k) /\
  dec + power fl k' = power fl k /\ stake_ok now k'.
Proof.
  unfold unlock_slashed. intros H (O1 & O2 & O3 & O4). inv; subst. bool_inv.
  repeat match goal with E : seed_power _ _ = Some _ |- _ => apply seed_power_Some in E as (-> & _) end.
  repeat match goal with E : u128_ratio _ _ (b_nano _) = Some _ |- _ => apply u128_ratio_Some in E as (E & D1 & D2) end.
  repeat match goal with E : u128_ratio _ _ BP_DENOM = Some _ |- _ => apply u128_ratio_Some in E as (E & D3 & D4) end.
  subst.
  match goal with E : (if _ then _ else _) = Some _ |- _ => rename E into Ek end.
  match goal with E : amount <= k_locked k |- _ => rename E into La end.
  destruct (N.ltb_spec amount (k_locked k)) as [Hlt|Hge].
  - inv; subst.
    match goal with E : u128_ratio _ _ _ = Some _ |- _ => apply u128_ratio_Some in E as (-> & D5 & _) end.
    cbn [with_lock with_free k_free k_locked k_x k_rps k_unlock k_dur k_ratios].
    split; [done|]. split; [lia|]. split; [done|]. split; [done|]. split; [done|]. split; [done|]. split; [done|].
    split; [done|]. split; [done|]. split; [done|]. split; [auto|]. split; [dlia|].
    unfold stake_ok; cbn [with_lock with_free k_locked k_x k_unlock k_dur]. split; [|split; [lia|auto]].
    apply N.div_le_lower_bound; [lia|]. apply N.mul_le_mono_r. exact O1.
  - inv; subst. assert (amount = k_locked k) by lia. subst amount.
    cbn [with_lock with_free k_free k_locked k_x k_rps k_unlock k_dur k_ratios].
    split; [done|]. split; [lia|]. split; [done|]. split; [done|]. split; [done|]. split; [done|]. split; [done|].
    split; [rewrite N.sub_diag, N.mul_0_r, div_zero_l; done|]. split; [done|]. split; [done|]. split; [lia|]. split; [dlia|].
    unfold stake_ok; cbn [with_lock with_free k_locked k_x k_unlock k_dur]. unfold b_nano. repeat split; lia.
Qed.

Lemma unlock_good fl now amount :
  good_op fl now (fun sd1 k =>
    '(k', dec, slash) ← unlock_slashed fl now k amount (bs_slash sd1);
    am ← csub (bs_amount sd1) slash; pw ← csub (bs_power sd1) dec; Some (k', am, pw, slash)).
Proof.
  intros sd k k' am pw sl H Ok. cbv beta in H.
  apply bind_Some in H as ([[k1 dec] slash] & Hu & H). inv; subst.
  apply unlock_slashed_Some in Hu as (_ & U2 & _ & _ & U5 & U6 & U7 & _ & U9 & _ & _ & U12 & U13); [|exact Ok].
  split; [done|]. split; [done|]. unfold staked. rewrite U6, U7. split; lia.
Qed.

(** ** Tokens the contract accounts for: stakes, slashed stakes and rewards *)
Definition assets (c : BState) (t : AccountId) : N :=
  seed_total c t + shares_get (b_slashed c) t + all_farms (in_token bf_total t) c.
Definition kept (fl : Floats) (now : N) (c c' : BState) (d : AccountId -> N) : Prop :=
  binv fl now c' /\ forall t, assets c' t = assets c t + d t.

Lemma total_tok t : forall f f', bf_token f' = bf_token f -> bf_total f' = bf_total f ->
  in_token bf_total t f' = in_token bf_total t f.
Proof. intros f f' E1 E2. unfold in_token. now rewrite E1, E2. Qed.

(** ** Replacing a seed *)
Lemma set_seed_inv fl now c s sd sd' od' n' :
  binv fl now c -> b_seeds c !! s = Some sd -> seed_inv fl c s sd' -> bs_next sd <= bs_next sd' ->
  (forall i, i < bs_next sd -> bs_farms sd !! i = None -> bs_farms sd' !! i = None) ->
  (forall s1 i f, od' !! (s1, i) = Some f -> b_outdated c !! (s1, i) = Some f \/
      (s1 = s /\ old_ok f /\ i < bs_next sd' /\ bs_farms sd' !! i = None)) ->
  (forall t, msum (fun _ f => in_token bf_claimed t f) (bs_farms sd') + msum (fun _ f => in_token bf_claimed t f) od'
           = msum (fun _ f => in_token bf_claimed t f) (bs_farms sd) + msum (fun _ f => in_token bf_claimed t f) (b_outdated c)) ->
  n' + N.of_nat (size (bs_farms sd)) = b_farm_count c + N.of_nat (size (bs_farms sd')) ->
  let c' := set_farm_count (set_seed (set_outdated c od') s sd') n' in
  binv fl now c' /\
  (forall s', seed_total c' s' = if decide (s = s') then bs_amount sd' else seed_total c s') /\
  (forall h, live_farms h c' + msum (fun _ f => h f) (bs_farms sd) = live_farms h c + msum (fun _ f => h f) (bs_farms sd')).
Proof.
  intros I Hs SI' Hnx Hfr Hold Hcl Hn c'.
  assert (L : forall h, live_farms h c' + msum (fun _ f => h f) (bs_farms sd) = live_farms h c + msum (fun _ f => h f) (bs_farms sd')).
  { intros h. unfold live_farms; cbn [c' set_farm_count set_seed set_seeds set_outdated b_seeds].
    pose proof (msum_insert (fun _ sd => msum (fun _ f => h f) (bs_farms sd)) (b_seeds c) s sd') as J.
    rewrite Hs in J. cbn [contrib] in J. exact J. }
  split; [|split; [|exact L]].
  - constructor; cbn [c' set_farm_count set_seed set_seeds set_outdated b_seeds b_farmers b_outdated b_farmer_count b_farm_count b_cfg].
    + intros s' sd1 H1. destruct (decide (s = s')) as [<-|Hne].
      * rewrite lookup_insert in H1. injection H1 as <-. destruct SI'. constructor; auto.
      * rewrite lookup_insert_ne in H1 by done. pose proof (bi_seed _ _ _ I s' sd1 H1) as []. constructor; auto.
    + intros a F s' k HF Hk. destruct (bi_stake _ _ _ I a F s' k HF Hk) as (Ok & sd1 & H1 & H2). split; [done|].
      destruct (decide (s = s')) as [<-|Hne].
      * rewrite Hs in H1. injection H1 as <-. exists sd'. rewrite lookup_insert. split; [done|].
        intros i r Hr. specialize (H2 i r Hr). lia.
      * exists sd1. now rewrite lookup_insert_ne.
    + intros t. change (all_rewards t c') with (all_rewards t c). rewrite (bi_rewards _ _ _ I t).
      unfold all_farms. pose proof (L (in_token bf_claimed t)) as E. specialize (Hcl t).
      unfold old_farms in *. cbn [c' set_farm_count set_seed set_seeds set_outdated b_outdated]. lia.
    + intros s' i f Hf. destruct (Hold s' i f Hf) as [Hf'|(-> & Ok & Hi & Hnone)].
      * destruct (bi_old _ _ _ I s' i f Hf') as (Ok & sd1 & H1 & H2 & H3). split; [done|].
        destruct (decide (s = s')) as [<-|Hne].
        -- rewrite Hs in H1. injection H1 as <-. exists sd'. rewrite lookup_insert. split; [done|]. split; [lia|auto].
        -- exists sd1. now rewrite lookup_insert_ne.
      * split; [done|]. exists sd'. rewrite lookup_insert. auto.
    + apply (bi_farmers _ _ _ I).
    + pose proof (L (fun _ => 1)) as E. rewrite !msum_one in E. pose proof (bi_farms _ _ _ I). lia.
    + apply (bi_self _ _ _ I).
    + apply (bi_mult _ _ _ I).
  - intros s1. unfold seed_total; cbn [c' set_farm_count set_seed set_seeds set_outdated b_seeds].
    destruct (decide (s = s1)) as [<-|Hne]; [now rewrite lookup_insert|now rewrite lookup_insert_ne].
Qed.

(** the same when outdated farms and the number of farms do not change *)
Lemma set_seed_inv' fl now c s sd sd' :
  binv fl now c -> b_seeds c !! s = Some sd -> seed_inv fl c s sd' -> bs_next sd' = bs_next sd ->
  (forall i, bs_farms sd !! i = None -> bs_farms sd' !! i = None) ->
  size (bs_farms sd') = size (bs_farms sd) ->
  (forall t, msum (fun _ f => in_token bf_claimed t f) (bs_farms sd') = msum (fun _ f => in_token bf_claimed t f) (bs_farms sd)) ->
  let c' := set_seed c s sd' in
  binv fl now c' /\
  (forall s', seed_total c' s' = if decide (s = s') then bs_amount sd' else seed_total c s') /\
  (forall h, live_farms h c' + msum (fun _ f => h f) (bs_farms sd) = live_farms h c + msum (fun _ f => h f) (bs_farms sd')).
Proof.
  intros I Hs SI En Hf Esz Ecl c'.
  pose proof (set_seed_inv fl now c s sd sd' (b_outdated c) (b_farm_count c) I Hs SI) as S.
  assert (E : set_farm_count (set_seed (set_outdated c (b_outdated c)) s sd') (b_farm_count c) = c') by (destruct c; reflexivity).
  rewrite E in S. apply S; try lia; auto. intros t. now rewrite Ecl.
Qed.

(** ** One farm changed *)
Lemma farm_change fl now c s sd i f f' :
  binv fl now c -> b_seeds c !! s = Some sd -> bs_farms sd !! i = Some f ->
  bf_token f' = bf_token f -> bf_claimed f' = bf_claimed f -> bf_benef f' = bf_benef f ->
  bf_rps f' = bf_rps f -> bf_dist f' = bf_dist f -> bf_total f <= bf_total f' ->
  kept fl now c (set_seed c s (with_farms sd (<[i := f']> (bs_farms sd))))
    (fun t => if String.eqb (bf_token f) t then bf_total f' - bf_total f else 0).
Proof.
  intros I Hs Hf E1 E2 E3 E4 E5 E6. pose proof (bi_seed _ _ _ I s sd Hs) as [A1 A2 A3 A4 A5 A6].
  set (sd' := with_farms sd (<[i := f']> (bs_farms sd))).
  assert (Lf : forall j g, bs_farms sd' !! j = Some g -> (j = i /\ g = f') \/ (j <> i /\ bs_farms sd !! j = Some g)).
  { intros j g Hg. unfold sd' in Hg; cbn [bs_farms with_farms] in Hg. destruct (decide (i = j)) as [<-|Hne].
    - rewrite lookup_insert in Hg. injection Hg as <-. auto.
    - rewrite lookup_insert_ne in Hg by done. auto. }
  assert (M : forall (h : BFarm -> N), msum (fun _ f => h f) (bs_farms sd') + h f = msum (fun _ f => h f) (bs_farms sd) + h f').
  { intros h. unfold sd'; cbn [bs_farms with_farms].
    pose proof (msum_insert (fun _ f => h f) (bs_farms sd) i f') as J. rewrite Hf in J. exact J. }
  edestruct (set_seed_inv' fl now c s sd sd') as (I' & T & L); [exact I|exact Hs| | | | | |].
  - constructor; auto.
    + intros j g Hg. destruct (Lf j g Hg) as [[-> ->]|[_ Hg']]; eauto.
    + intros j g Hg. destruct (Lf j g Hg) as [[-> ->]|[_ Hg']]; eauto.
      destruct (A4 i f Hf) as [B1 B2]. split; [lia|]. intros T0. rewrite E4. apply B2. lia.
    + intros j g a F k Hg HF Hk. destruct (Lf j g Hg) as [[-> ->]|[_ Hg']]; eauto. rewrite E4. eauto.
    + intros j g Hg. destruct (Lf j g Hg) as [[-> ->]|[_ Hg']]; [|auto].
      rewrite E2, E3, E5. erewrite all_stakes_ext; [apply (A6 i f Hf)|].
      intros a F k HF Hk. unfold due. now rewrite E4.
  - reflexivity.
  - intros j Hj. unfold sd'; cbn [bs_farms with_farms]. rewrite lookup_insert_ne; [done|]. intros ->. congruence.
  - unfold sd'; cbn [bs_farms with_farms]. rewrite map_size_insert, Hf. reflexivity.
  - intros t. pose proof (M (in_token bf_claimed t)) as J. unfold in_token in J at 2 4. rewrite E1, E2 in J. lia.
  - split; [exact I'|]. intros t. unfold assets. rewrite T. pose proof (L (in_token bf_total t)) as J.
    pose proof (M (in_token bf_total t)) as K. unfold all_farms.
    change (old_farms (in_token bf_total t) (set_seed c s sd')) with (old_farms (in_token bf_total t) c).
    change (b_slashed (set_seed c s sd')) with (b_slashed c).
    unfold in_token in K at 2 4. rewrite E1 in K.
    assert (E : (if decide (s = t) then bs_amount sd' else seed_total c t) = seed_total c t).
    { destruct (decide (s = t)) as [<-|]; [|done]. unfold seed_total. now rewrite Hs. }
    rewrite E. destruct (String.eqb (bf_token f) t); lia.
Qed.

Lemma get_seed_kept fl now c s sd :
  binv fl now c -> get_seed now c s = Some sd ->
  kept fl now c (set_seed c s sd) (fun _ => 0) /\ b_seeds (set_seed c s sd) !! s = Some sd.
Proof.
  intros I Hg. unfold get_seed in Hg. apply bind_Some in Hg as (sd0 & Hs0 & Hup).
  destruct (touch_seed _ _ _ _ _ _ _ I Hs0 Hup) as [I1 [T1 T2 _ _ T3 T4 _ _]].
  split; [|apply lookup_insert]. split; [exact I1|]. intros t. unfold assets.
  rewrite T1, T4. unfold all_farms, old_farms. rewrite T3, T2; [lia|]. intros; now apply total_tok.
Qed.
Lemma set_seed_twice c s sd sd' : set_seed (set_seed c s sd) s sd' = set_seed c s sd'.
Proof. unfold set_seed, set_seeds; cbn [b_owner b_running b_ops b_cfg b_seeds b_farmers b_outdated b_slashed b_farmer_count b_farm_count].
  now rewrite insert_insert. Qed.
Lemma kept_trans fl now a b c d e :
  kept fl now a b d -> kept fl now b c e -> kept fl now a c (fun t => d t + e t).
Proof. intros [I1 T1] [I2 T2]. split; [exact I2|]. intros t. rewrite T2, T1. lia. Qed.
Lemma kept_ext fl now a b d e : (forall t, d t = e t) -> kept fl now a b d -> kept fl now a b e.
Proof. intros E [I T]. split; [exact I|]. intros t. now rewrite T, E. Qed.

(** ** The calls *)
Lemma binv_same fl now c c' :
  binv fl now c -> b_cfg c' = b_cfg c -> b_seeds c' = b_seeds c -> b_farmers c' = b_farmers c ->
  b_outdated c' = b_outdated c -> b_farmer_count c' = b_farmer_count c -> b_farm_count c' = b_farm_count c ->
  binv fl now c'.
Proof.
  destruct c, c'; cbn. intros [B1 B2 B3 B4 B5 B6 B7 B8] -> -> -> -> -> ->. constructor; auto.
  intros s sd Hs. destruct (B1 s sd Hs); constructor; auto.
Qed.
Definition to_asset (a : AccountId) (n : N) : AccountId -> N := fun t => if String.eqb a t then n else 0.

Lemma stake_op_kept fl now c a s F sd op c' slash :
  zero_extra fl -> binv fl now c -> b_farmers c !! a = Some F -> get_seed now c s = Some sd ->
  good_op fl now op -> stake_op fl now c a s F sd op = Some (c', slash) ->
  exists sd1 k k' am pw, op sd1 k = Some (k', am, pw, slash) /\ stake_ok now k /\
    bs_amount sd1 = seed_total c s /\
    binv fl now c' /\ b_slashed c' = b_slashed c /\
    forall t, assets c' t + to_asset s (bs_amount sd1) t = assets c t + to_asset s am t.
Proof.
  intros Z I HF Hg G H.
  destruct (stake_op_spec fl now c a s F sd op c' slash Z I HF Hg G H)
    as (I' & F1 & sd1 & k & k' & am & pw & F' & Hcl & Hk & Hop & Eam & _ & _ & Tot & Live & _ & _ & Eo & Es & _).
  exists sd1, k, k', am, pw. split; [exact Hop|]. split.
  { unfold get_seed in Hg. apply bind_Some in Hg as (sd0 & Hs0 & Hup).
    destruct (touch_seed _ _ _ _ _ _ _ I Hs0 Hup) as [I1 _].
    assert (LF : b_farmers (set_seed c s sd) !! a = Some F) by exact HF.
    assert (LS : b_seeds (set_seed c s sd) !! s = Some sd) by apply lookup_insert.
    destruct (claim_spec fl (b_cfg c) now _ a F s sd F1 sd1 Z I1 LF LS Hcl) as (I2 & _).
    apply (bi_stake _ _ _ I2 a F1 s k); [apply lookup_insert|exact Hk]. }
  split; [exact Eam|]. split; [exact I'|]. split; [exact Es|].
  intros t. unfold assets, all_farms, old_farms. rewrite Tot, Es, Eo, (Live (in_token bf_total t)) by (intros; now apply total_tok).
  unfold to_asset. destruct (decide (s = t)) as [<-|Hne].
  - rewrite String.eqb_refl, Eam. lia.
  - destruct (String.eqb_spec s t); [congruence|lia].
Qed.

Lemma stake_free_kept fl now c a s amount c' :
  zero_extra fl -> binv fl now c -> stake_free_seed fl now c a s amount = Some c' -> kept fl now c c' (to_asset s amount).
Proof.
  intros Z I H. unfold stake_free_seed in H.
  apply bind_Some in H as (F & HF & H). apply bind_Some in H as (sd & Hg & H). apply bind_Some in H as (u & _ & H).
  apply bind_Some in H as ([c1 sl] & Hop & H). injection H as ->.
  destruct (stake_op_kept _ _ _ _ _ _ _ _ _ _ Z I HF Hg (add_free_good fl now amount) Hop)
    as (sd1 & k & k' & am & pw & Ho & _ & _ & I' & _ & A).
  split; [exact I'|]. intros t. specialize (A t). inv; subst. unfold to_asset in *. destruct (String.eqb s t); lia.
Qed.
Lemma stake_lock_kept fl now c a s amount dur c' :
  zero_extra fl -> binv fl now c -> stake_lock_seed fl now c a s amount dur = Some c' -> kept fl now c c' (to_asset s amount).
Proof.
  intros Z I H. unfold stake_lock_seed in H.
  apply bind_Some in H as (F & HF & H). apply bind_Some in H as (sd & Hg & H). apply bind_Some in H as (u & _ & H).
  apply bind_Some in H as (u' & _ & H).
  apply bind_Some in H as ([c1 sl] & Hop & H). injection H as ->.
  destruct (stake_op_kept _ _ _ _ _ _ _ _ _ _ Z I HF Hg (add_lock_good fl now (b_cfg c) amount dur) Hop)
    as (sd1 & k & k' & am & pw & Ho & _ & _ & I' & _ & A).
  split; [exact I'|]. intros t. specialize (A t). inv; subst. unfold to_asset in *. destruct (String.eqb s t); lia.
Qed.
Lemma lock_free_kept fl now c a att s dur amount c' :
  zero_extra fl -> binv fl now c -> lock_free_seed fl now c a att s dur amount = Some c' -> kept fl now c c' (fun _ => 0).
Proof.
  intros Z I H. unfold lock_free_seed in H.
  apply bind_Some in H as (u1 & _ & H). apply bind_Some in H as (u2 & _ & H).
  apply bind_Some in H as (F & HF & H). apply bind_Some in H as (sd & Hg & H). apply bind_Some in H as (u & _ & H).
  apply bind_Some in H as ([c1 sl] & Hop & H). injection H as ->.
  destruct (stake_op_kept _ _ _ _ _ _ _ _ _ _ Z I HF Hg (free_to_lock_good fl now (b_cfg c) amount dur) Hop)
    as (sd1 & k & k' & am & pw & Ho & _ & _ & I' & _ & A).
  split; [exact I'|]. intros t. specialize (A t). inv; subst. lia.
Qed.
Lemma force_unlock_kept fl now c a att s amount c' :
  zero_extra fl -> binv fl now c -> force_unlock fl now c a att s amount = Some c' -> kept fl now c c' (fun _ => 0).
Proof.
  intros Z I H. unfold force_unlock in H.
  apply bind_Some in H as (u1 & _ & H). apply bind_Some in H as (u2 & _ & H).
  apply bind_Some in H as (F & HF & H). apply bind_Some in H as (sd & Hg & H).
  apply bind_Some in H as ([c1 sl] & Hop & H). apply bind_Some in H as (m & Hm & H). injection H as <-.
  destruct (stake_op_kept _ _ _ _ _ _ _ _ _ _ Z I HF Hg (unlock_good fl now amount) Hop)
    as (sd1 & k & k' & am & pw & Ho & Ok & _ & I' & Es & A).
  apply add_to_collection_Some in Hm as [-> _].
  split; [eapply binv_same; [exact I'|reflexivity..]|]. intros t. specialize (A t).
  apply bind_Some in Ho as ([[k1 dec] slash] & Hu & Ho). inv; subst.
  unfold assets in *. cbn [set_slashed b_slashed].
  change (seed_total (set_slashed c1 _) t) with (seed_total c1 t).
  change (all_farms (in_token bf_total t) (set_slashed c1 _)) with (all_farms (in_token bf_total t) c1).
  unfold to_asset in *. destruct (String.eqb_spec s t) as [->|Hne].
  - rewrite shares_get_insert, Es in *. lia.
  - rewrite shares_get_insert_ne by done. lia.
Qed.
Lemma claim_kept fl now c a s c' :
  zero_extra fl -> binv fl now c -> claim_reward_by_seed fl now c a s = Some c' -> kept fl now c c' (fun _ => 0).
Proof.
  intros Z I H. unfold claim_reward_by_seed in H.
  apply bind_Some in H as (u1 & _ & H).
  apply bind_Some in H as (F & HF & H). apply bind_Some in H as (sd & Hg & H).
  apply bind_Some in H as ([F' sd'] & Hcl & H). injection H as <-.
  destruct (get_seed_kept fl now c s sd I Hg) as [[I1 A1] LS].
  destruct (claim_spec fl (b_cfg c) now _ a F s sd F' sd' Z I1 HF LS Hcl) as (I2 & [T1 T2 _ _ T3 T4 _ _] & _).
  assert (E : put (set_seed c s sd) a F' s sd' = set_farmer (set_seed c s sd') a F').
  { unfold put, set_seed, set_seeds, set_farmer, set_farmers;
    cbn [b_owner b_running b_ops b_cfg b_seeds b_farmers b_outdated b_slashed b_farmer_count b_farm_count].
    now rewrite insert_insert. }
  rewrite E in I2, T1, T2, T3, T4. split; [exact I2|]. intros t. rewrite <- A1. unfold assets, all_farms, old_farms.
  rewrite T1, T3, T4, (T2 (in_token bf_total t)) by (intros; now apply total_tok). lia.
Qed.
Lemma deposit_reward_kept fl now c s i token amount c' :
  binv fl now c -> deposit_reward now c s i token amount = Some c' -> kept fl now c c' (to_asset token amount).
Proof.
  intros I H. unfold deposit_reward in H.
  apply bind_Some in H as (sd & Hg & H). apply bind_Some in H as (f & Hf & H).
  apply bind_Some in H as (f' & Ha & H). injection H as <-.
  destruct (get_seed_kept fl now c s sd I Hg) as [K1 LS]. pose proof (proj1 K1) as I1.
  unfold add_reward in Ha. inv; subst. bool_inv. subst token.
  assert (K : kept fl now (set_seed c s sd) (set_seed (set_seed c s sd) s (with_farms sd (<[i:=
     (if bf_start f =? 0
        then mkBFarm (bf_token f) (b_sec now) (bf_daily f) (bf_total f + amount) now (bf_dist f) (bf_claimed f) (bf_benef f) (bf_rps f)
        else mkBFarm (bf_token f) (bf_start f) (bf_daily f) (bf_total f + amount) (bf_at f) (bf_dist f) (bf_claimed f) (bf_benef f) (bf_rps f))
      ]> (bs_farms sd)))) (to_asset (bf_token f) amount)).
  { eapply kept_ext; [|eapply (farm_change fl now (set_seed c s sd) s sd i f); try eassumption].
    1: intros t; unfold to_asset; destruct (String.eqb _ _); [|done].
    all: destruct (bf_start f =? 0); cbn; lia || reflexivity. }
  rewrite set_seed_twice in K. eapply kept_ext; [|eapply kept_trans; [exact K1|exact K]]. intros t. reflexivity.
Qed.

Lemma cfg_kept fl now c g :
  binv fl now c -> (forall b info, c_boosters g !! b = Some info -> snd info !! b = None) ->
  MIN_LOCKING_REWARD_RATIO < c_max_mult g -> kept fl now c (set_cfg c g) (fun _ => 0).
Proof.
  intros [B1 B2 B3 B4 B5 B6 B7 B8] H1 H2. split.
  - constructor; auto. intros s sd Hs. destruct (B1 s sd Hs); constructor; auto.
  - intros t. symmetry. apply N.add_0_r.
Qed.
Lemma same_kept fl now c c' :
  binv fl now c -> b_cfg c' = b_cfg c -> b_seeds c' = b_seeds c -> b_farmers c' = b_farmers c ->
  b_outdated c' = b_outdated c -> b_slashed c' = b_slashed c -> b_farmer_count c' = b_farmer_count c ->
  b_farm_count c' = b_farm_count c -> kept fl now c c' (fun _ => 0).
Proof.
  intros I E1 E2 E3 E4 E5 E6 E7. split; [eapply binv_same; eassumption|].
  intros t. unfold assets, all_farms, live_farms, old_farms, seed_total. rewrite E2, E4, E5. lia.
Qed.

Lemma terms_kept fl now c s sd m sl ml :
  binv fl now c -> b_seeds c !! s = Some sd -> kept fl now c (set_seed c s (with_terms sd m sl ml)) (fun _ => 0).
Proof.
  intros I Hs. pose proof (bi_seed _ _ _ I s sd Hs) as [].
  edestruct (set_seed_inv' fl now c s sd (with_terms sd m sl ml)) as (I' & T & L);
    [exact I|exact Hs|constructor; auto|reflexivity|auto|reflexivity|reflexivity|].
  split; [exact I'|]. intros t. unfold assets. rewrite T. pose proof (L (in_token bf_total t)) as J. cbn [bs_farms with_terms] in J.
  unfold all_farms. change (old_farms (in_token bf_total t) (set_seed c s _)) with (old_farms (in_token bf_total t) c).
  change (b_slashed (set_seed c s _)) with (b_slashed c).
  assert (E : (if decide (s = t) then bs_amount (with_terms sd m sl ml) else seed_total c t) = seed_total c t).
  { destruct (decide (s = t)) as [<-|]; [|done]. unfold seed_total. now rewrite Hs. }
  rewrite E. lia.
Qed.

Lemma create_seed_kept fl now c a att s dec mind minlock c' :
  binv fl now c -> create_seed c a att s dec mind minlock = Some c' -> kept fl now c c' (fun _ => 0).
Proof.
  intros I H. unfold create_seed in H. apply bind_Some in H as (u & _ & H).
  destruct (b_seeds c !! s) eqn:Hs; [discriminate|]. injection H as <-.
  assert (Zero : forall h, all_stakes h s c = 0).
  { intros h. apply all_stakes_zero. intros a1 F k HF Hk.
    destruct (bi_stake _ _ _ I a1 F s k HF Hk) as (_ & sd & Hsd & _). congruence. }
  set (sd := mkBSeed _ _ _ _ _ _ _ _).
  assert (L : forall h, live_farms h (set_seed c s sd) = live_farms h c).
  { intros h. unfold live_farms, set_seed, set_seeds; cbn [b_seeds]. rewrite msum_insert_None by done.
    cbn [sd bs_farms]. rewrite msum_empty. lia. }
  split.
  - constructor; cbn [set_seed set_seeds b_seeds b_farmers b_outdated b_farmer_count b_farm_count b_cfg].
    + intros s' sd1 H1. destruct (decide (s = s')) as [<-|Hne].
      * rewrite lookup_insert in H1. injection H1 as <-. constructor; cbn [sd bs_amount bs_power bs_farms bs_next].
        all: try (intros i f Hf; rewrite lookup_empty in Hf; discriminate).
        -- symmetry. apply Zero.
        -- symmetry. apply Zero.
        -- intros i f a1 F k Hf. rewrite lookup_empty in Hf. discriminate.
      * rewrite lookup_insert_ne in H1 by done. pose proof (bi_seed _ _ _ I s' sd1 H1) as []. constructor; auto.
    + intros a1 F s' k HF Hk. destruct (bi_stake _ _ _ I a1 F s' k HF Hk) as (Ok & sd1 & H1 & H2). split; [done|].
      exists sd1. rewrite lookup_insert_ne; [auto|]. intros ->. congruence.
    + intros t. change (all_rewards t _) with (all_rewards t c). rewrite (bi_rewards _ _ _ I t).
      unfold all_farms. now rewrite L.
    + intros s' i f Hf. destruct (bi_old _ _ _ I s' i f Hf) as (Ok & sd1 & H1 & H2 & H3). split; [done|].
      exists sd1. rewrite lookup_insert_ne; [auto|]. intros ->. congruence.
    + apply (bi_farmers _ _ _ I).
    + rewrite L. apply (bi_farms _ _ _ I).
    + apply (bi_self _ _ _ I).
    + apply (bi_mult _ _ _ I).
  - intros t. unfold assets, all_farms. rewrite L. change (old_farms _ (set_seed c s sd)) with (old_farms (in_token bf_total t) c).
    change (b_slashed (set_seed c s sd)) with (b_slashed c).
    assert (E : seed_total (set_seed c s sd) t = seed_total c t).
    { unfold seed_total, set_seed, set_seeds; cbn [b_seeds]. destruct (decide (s = t)) as [<-|Hne].
      - now rewrite lookup_insert, Hs.
      - now rewrite lookup_insert_ne. }
    lia.
Qed.

Lemma create_farm_kept fl now c a att s token start daily c' :
  binv fl now c -> create_farm now c a att s token start daily = Some c' -> kept fl now c c' (fun _ => 0).
Proof.
  intros I H. unfold create_farm in H. apply bind_Some in H as (u & _ & H).
  apply bind_Some in H as (sd & Hg & H). apply bind_Some in H as (u1 & _ & H).
  apply bind_Some in H as (nx & Hnx & H). apply bind_Some in H as (n & Hn & H). apply bind_Some in H as (u2 & _ & H).
  injection H as <-. apply cadd_Some in Hnx as [-> _]. apply cadd_Some in Hn as [-> _].
  destruct (get_seed_kept fl now c s sd I Hg) as [K1 LS]. pose proof (proj1 K1) as I1.
  pose proof (bi_seed _ _ _ I1 s sd LS) as [A1 A2 A3 A4 A5 A6].
  set (f0 := farm_new token start daily). set (sd' := with_next _ _).
  assert (N0 : bs_farms sd !! bs_next sd = None).
  { destruct (bs_farms sd !! bs_next sd) eqn:E; [|done]. apply A3 in E. lia. }
  assert (M : forall (h : BFarm -> N), msum (fun _ f => h f) (bs_farms sd') = msum (fun _ f => h f) (bs_farms sd) + h f0).
  { intros h. cbn [sd' bs_farms with_next with_farms]. rewrite msum_insert_None by done. lia. }
  assert (Lf : forall j g, bs_farms sd' !! j = Some g -> (j = bs_next sd /\ g = f0) \/ bs_farms sd !! j = Some g).
  { intros j g Hj. cbn [sd' bs_farms with_next with_farms] in Hj. destruct (decide (bs_next sd = j)) as [<-|Hne].
    - rewrite lookup_insert in Hj. injection Hj as <-. auto.
    - rewrite lookup_insert_ne in Hj by done. auto. }
  edestruct (set_seed_inv fl now (set_seed c s sd) s sd sd' (b_outdated c) (b_farm_count c + 1)) as (I' & T & L);
    [exact I1|exact LS| | | | | | |].
  - constructor; cbn [sd' bs_amount bs_power bs_next with_next with_farms]; auto.
    + intros j g Hj. destruct (Lf j g Hj) as [[-> ->]|Hj']; [lia|]. apply A3 in Hj'. lia.
    + intros j g Hj. destruct (Lf j g Hj) as [[-> ->]|Hj']; [|eauto]. split; [reflexivity|done].
    + intros j g a1 F k Hj HF Hk. destruct (Lf j g Hj) as [[-> ->]|Hj']; [|eauto].
      destruct (bi_stake _ _ _ I1 a1 F s k HF Hk) as (_ & sd1 & H1 & H2).
      rewrite LS in H1. injection H1 as <-. destruct (k_rps k !! bs_next sd) as [r|] eqn:Er.
      * specialize (H2 _ _ Er). lia.
      * cbn. lia.
    + intros j g Hj. destruct (Lf j g Hj) as [[-> ->]|Hj']; [|eauto].
      rewrite all_stakes_zero; [cbn; lia|]. intros a1 F k HF Hk. unfold due. cbn [f0 farm_new bf_rps]. lia.
  - cbn [sd' bs_next with_next]. lia.
  - intros j Hj Hjn. cbn [sd' bs_farms with_next with_farms]. rewrite lookup_insert_ne; [done|lia].
  - auto.
  - intros t. rewrite M. unfold in_token at 2. cbn [f0 farm_new bf_claimed bf_token]. destruct (String.eqb _ _); cbn; lia.
  - cbn [sd' bs_farms with_next with_farms]. rewrite map_size_insert, N0. cbn [b_farm_count set_seed set_seeds]. lia.
  - assert (E : set_farm_count (set_seed (set_outdated (set_seed c s sd) (b_outdated c)) s sd') (b_farm_count c + 1)
                = set_farm_count (set_seed c s sd') (b_farm_count c + 1)).
    { unfold set_farm_count, set_outdated, set_seed, set_seeds;
      cbn [b_owner b_running b_ops b_cfg b_seeds b_farmers b_outdated b_slashed b_farmer_count b_farm_count].
      now rewrite insert_insert. }
    rewrite E in I', T, L. eapply kept_ext; [|eapply kept_trans; [exact K1|]].
    2:{ split; [exact I'|]. intros t. instantiate (1 := fun _ => 0). unfold assets. rewrite T.
        pose proof (L (in_token bf_total t)) as J. rewrite M in J.
        unfold all_farms. change (old_farms _ (set_farm_count (set_seed c s sd') (b_farm_count c + 1))) with (old_farms (in_token bf_total t) (set_seed c s sd)).
        change (b_slashed (set_farm_count (set_seed c s sd') (b_farm_count c + 1))) with (b_slashed (set_seed c s sd)).
        assert (E2 : (if decide (s = t) then bs_amount sd' else seed_total (set_seed c s sd) t) = seed_total (set_seed c s sd) t).
        { destruct (decide (s = t)) as [<-|]; [|done]. unfold seed_total. now rewrite LS. }
        rewrite E2. assert (in_token bf_total t f0 = 0) by (unfold in_token; destruct (String.eqb _ _); reflexivity). lia. }
    reflexivity.
Qed.

(** a farm taken out of its seed *)
Lemma drop_farm_kept fl now c s sd i f od' :
  binv fl now c -> b_seeds c !! s = Some sd -> bs_farms sd !! i = Some f ->
  (od' = b_outdated c /\ bf_total f = 0 \/
   exists f', od' = <[(s, i) := f']> (b_outdated c) /\ old_ok f' /\ bf_token f' = bf_token f /\
     bf_claimed f' = bf_claimed f /\ bf_total f' = bf_total f) ->
  0 < b_farm_count c /\
  kept fl now c (set_farm_count (set_seed (set_outdated c od') s (with_farms sd (delete i (bs_farms sd)))) (b_farm_count c - 1)) (fun _ => 0).
Proof.
  intros I Hs Hf Hod. pose proof (bi_seed _ _ _ I s sd Hs) as [A1 A2 A3 A4 A5 A6].
  set (sd' := with_farms sd (delete i (bs_farms sd))).
  assert (Lf : forall j g, bs_farms sd' !! j = Some g -> bs_farms sd !! j = Some g).
  { intros j g Hj. cbn [sd' bs_farms with_farms] in Hj. apply lookup_delete_Some in Hj as [_ Hj]. done. }
  assert (M : forall (h : BFarm -> N), msum (fun _ f => h f) (bs_farms sd') + h f = msum (fun _ f => h f) (bs_farms sd)).
  { intros h. cbn [sd' bs_farms with_farms]. pose proof (msum_delete_gen (fun _ f => h f) (bs_farms sd) i) as J.
    rewrite Hf in J. exact J. }
  assert (Od : forall h : BFarm -> N, (forall f', bf_token f' = bf_token f -> bf_claimed f' = bf_claimed f -> bf_total f' = bf_total f -> h f' = h f) ->
             (bf_total f = 0 -> bf_claimed f = 0 -> h f = 0) ->
             msum (fun _ f => h f) od' = msum (fun _ f => h f) (b_outdated c) + h f).
  { intros h Hh H0. destruct Hod as [[-> T0]|(f' & -> & _ & E1 & E2 & E3)].
    - rewrite H0; [lia|done|]. specialize (A6 i f Hf). destruct (A4 i f Hf) as [B1 _].
      assert (0 < B_DIV) by (vm_compute; reflexivity). nia.
    - assert (b_outdated c !! (s, i) = None) as E.
      { destruct (b_outdated c !! (s, i)) as [g|] eqn:E; [|done].
        destruct (bi_old _ _ _ I s i g E) as (_ & sd1 & H1 & _ & H2). rewrite Hs in H1. injection H1 as <-. congruence. }
      rewrite msum_insert_None by done. rewrite (Hh f') by done. lia. }
  assert (Pos : 0 < b_farm_count c).
  { rewrite (bi_farms _ _ _ I). unfold live_farms.
    pose proof (msum_lookup_le (fun _ sd => msum (fun _ _ => 1) (bs_farms sd)) (b_seeds c) s) as J.
    rewrite Hs in J. cbn [contrib] in J. pose proof (M (fun _ => 1)) as K. cbv beta in K. lia. }
  split; [exact Pos|].
  edestruct (set_seed_inv fl now c s sd sd' od' (b_farm_count c - 1)) as (I' & T & L);
    [exact I|exact Hs| | | | | | |].
  - constructor; cbn [sd' bs_amount bs_power bs_next with_farms]; eauto.
  - reflexivity.
  - intros j _ Hj. cbn [sd' bs_farms with_farms]. apply lookup_delete_None. auto.
  - intros s1 j g Hg. destruct Hod as [[-> _]|(f' & -> & Ok & _)]; [auto|].
    destruct (decide ((s, i) = (s1, j))) as [E|Hne].
    + injection E as <- <-. rewrite lookup_insert in Hg. injection Hg as <-. right.
      split; [done|]. split; [done|]. split; [apply (A3 i f Hf)|]. cbn [sd' bs_farms with_farms]. apply lookup_delete.
    + rewrite lookup_insert_ne in Hg by done. auto.
  - intros t. rewrite (Od (in_token bf_claimed t)).
    + pose proof (M (in_token bf_claimed t)). lia.
    + intros f' E1 E2 _. unfold in_token. now rewrite E1, E2.
    + intros _ E. unfold in_token. destruct (String.eqb _ _); auto.
  - pose proof (M (fun _ => 1)) as J. rewrite !msum_one in J. lia.
  - split; [exact I'|]. intros t. unfold assets. rewrite T.
    pose proof (L (in_token bf_total t)) as J. pose proof (M (in_token bf_total t)) as K. unfold all_farms, old_farms.
    cbn [b_outdated b_slashed set_farm_count set_seed set_seeds set_outdated].
    rewrite (Od (in_token bf_total t)).
    + assert (E2 : (if decide (s = t) then bs_amount sd' else seed_total c t) = seed_total c t).
      { destruct (decide (s = t)) as [<-|]; [|done]. unfold seed_total. now rewrite Hs. }
      rewrite E2. lia.
    + intros f' E1 _ E3. unfold in_token. now rewrite E1, E3.
    + intros E _. unfold in_token. destruct (String.eqb _ _); auto.
Qed.

Lemma set_seed_under c s sd sd' od n :
  set_farm_count (set_seed (set_outdated (set_seed c s sd) od) s sd') n = set_farm_count (set_seed (set_outdated c od) s sd') n.
Proof.
  unfold set_farm_count, set_outdated, set_seed, set_seeds;
  cbn [b_owner b_running b_ops b_cfg b_seeds b_farmers b_outdated b_slashed b_farmer_count b_farm_count].
  now rewrite insert_insert.
Qed.

Lemma cancel_farm_kept fl now c a att s i c' :
  binv fl now c -> cancel_farm now c a att s i = Some c' -> kept fl now c c' (fun _ => 0).
Proof.
  intros I H. unfold cancel_farm in H. apply bind_Some in H as (u & _ & H).
  apply bind_Some in H as (sd & Hg & H). apply bind_Some in H as (f & Hf & H).
  apply bind_Some in H as (u1 & H0 & H). apply bind_Some in H as (n & Hn & H). injection H as <-.
  inv; bool_inv; subst.
  destruct (get_seed_kept fl now c s sd I Hg) as [K1 LS].
  destruct (drop_farm_kept fl now (set_seed c s sd) s sd i f (b_outdated c) (proj1 K1) LS Hf) as [_ K2].
  { left. split; [reflexivity|done]. }
  rewrite set_seed_under in K2. eapply kept_ext; [|eapply kept_trans; [exact K1|exact K2]]. reflexivity.
Qed.
Lemma finalize_Some now f f' : farm_ok f -> finalize now f = Some f' ->
  old_ok f' /\ bf_token f' = bf_token f /\ bf_claimed f' = bf_claimed f /\ bf_total f' = bf_total f.
Proof.
  intros [Ok _] H. unfold finalize in H. inv; subst. bool_inv. unfold old_ok. cbn.
  assert (E : farm_status now f = BEnded) by assumption.
  unfold farm_status in E. destruct ((bf_start f =? 0) || (now <=? b_nano (bf_start f))); [discriminate|].
  destruct ((bf_total f =? 0) && (b_nano (bf_start f) <? now)); [discriminate|].
  destruct ((0 <? bf_total f) && (bf_total f <=? bf_dist f)) eqn:E1; [|discriminate]. bool_inv.
  repeat split; lia.
Qed.
Lemma remove_farm_kept fl now c a att s i c' :
  binv fl now c -> remove_farm now c a att s i = Some c' -> kept fl now c c' (fun _ => 0).
Proof.
  intros I H. unfold remove_farm in H. apply bind_Some in H as (u & _ & H). apply bind_Some in H as (u1 & _ & H).
  apply bind_Some in H as (sd & Hg & H). apply bind_Some in H as (f & Hf & H).
  apply bind_Some in H as (f' & Hfin & H). apply bind_Some in H as (n & Hn & H). injection H as <-.
  apply csub_Some in Hn as [-> _].
  destruct (get_seed_kept fl now c s sd I Hg) as [K1 LS].
  destruct (finalize_Some now f f' (si_farm _ _ _ _ (bi_seed _ _ _ (proj1 K1) s sd LS) i f Hf) Hfin) as (Ok & E1 & E2 & E3).
  destruct (drop_farm_kept fl now (set_seed c s sd) s sd i f (<[(s, i) := f']> (b_outdated c)) (proj1 K1) LS Hf) as [_ K2].
  { right. exists f'. auto. }
  rewrite set_seed_under in K2. eapply kept_ext; [|eapply kept_trans; [exact K1|exact K2]]. reflexivity.
Qed.
Lemma modify_daily_kept fl now c a att s i d c' :
  binv fl now c -> modify_daily now c a att s i d = Some c' -> kept fl now c c' (fun _ => 0).
Proof.
  intros I H. unfold modify_daily in H. apply bind_Some in H as (u & _ & H).
  apply bind_Some in H as (sd & Hg & H). apply bind_Some in H as (f & Hf & H). injection H as <-.
  destruct (get_seed_kept fl now c s sd I Hg) as [K1 LS]. pose proof (proj1 K1) as I1.
  set (f' := mkBFarm _ _ _ _ _ _ _ _ _).
  assert (K : kept fl now (set_seed c s sd) (set_seed (set_seed c s sd) s (with_farms sd (<[i:=f']> (bs_farms sd)))) (fun _ => 0)).
  { eapply kept_ext; [|eapply (farm_change fl now (set_seed c s sd) s sd i f f'); try eassumption; reflexivity || (cbn; lia)].
    intros t. cbn. destruct (String.eqb _ _); lia. }
  rewrite set_seed_twice in K. eapply kept_ext; [|eapply kept_trans; [exact K1|exact K]]. reflexivity.
Qed.
Lemma terms_call_kept fl now c s sd m sl ml :
  binv fl now c -> get_seed now c s = Some sd -> kept fl now c (set_seed c s (with_terms sd m sl ml)) (fun _ => 0).
Proof.
  intros I Hg. destruct (get_seed_kept fl now c s sd I Hg) as [K1 LS].
  pose proof (terms_kept fl now (set_seed c s sd) s sd m sl ml (proj1 K1) LS) as K2. rewrite set_seed_twice in K2.
  eapply kept_ext; [|eapply kept_trans; [exact K1|exact K2]]. reflexivity.
Qed.

(** farmers come and go without stakes or rewards *)
Lemma farmer_new_kept fl now c a p :
  binv fl now c -> b_farmers c !! a = None ->
  kept fl now c (set_farmer_count (set_farmer c a (mkBFarmer p ∅ ∅)) (b_farmer_count c + 1)) (fun _ => 0).
Proof.
  intros I Ha. set (c' := set_farmer_count _ _).
  assert (E : forall h s, all_stakes h s c' = all_stakes h s c).
  { intros h s. unfold all_stakes. cbn [c' set_farmer_count set_farmer set_farmers b_farmers].
    rewrite msum_insert_None by done. unfold of_stake at 1. cbn [b_stakes]. rewrite lookup_empty. lia. }
  assert (L : forall a1 F, b_farmers c' !! a1 = Some F -> b_farmers c !! a1 = Some F \/ b_stakes F = ∅).
  { intros a1 F H. cbn [c' set_farmer_count set_farmer set_farmers b_farmers] in H.
    destruct (decide (a = a1)) as [<-|Hne].
    - rewrite lookup_insert in H. injection H as <-. auto.
    - rewrite lookup_insert_ne in H by done. auto. }
  destruct I as [B1 B2 B3 B4 B5 B6 B7 B8]. split.
  - constructor; auto.
    + intros s sd Hs. destruct (B1 s sd Hs) as [C1 C2 C3 C4 C5 C6]. constructor; auto.
      * now rewrite E.
      * now rewrite E.
      * intros i f a1 F k Hf HF Hk. destruct (L a1 F HF) as [HF'|E0]; [eauto|]. rewrite E0, lookup_empty in Hk. discriminate.
      * intros i f Hf. rewrite E. auto.
    + intros a1 F s k HF Hk. destruct (L a1 F HF) as [HF'|E0]; [exact (B2 a1 F s k HF' Hk)|]. rewrite E0, lookup_empty in Hk. discriminate.
    + intros t. change (all_farms (in_token bf_claimed t) c') with (all_farms (in_token bf_claimed t) c). rewrite <- B3.
      unfold all_rewards. cbn [c' set_farmer_count set_farmer set_farmers b_farmers].
      rewrite msum_insert_None by done. cbn [b_rewards]. change (shares_get ∅ t) with 0. lia.
    + cbn [c' set_farmer_count set_farmer set_farmers b_farmers b_farmer_count]. rewrite map_size_insert, Ha, B5. lia.
  - intros t. symmetry. apply N.add_0_r.
Qed.
Lemma farmer_gone_kept fl now c a F :
  binv fl now c -> b_farmers c !! a = Some F -> b_rewards F = ∅ -> b_stakes F = ∅ ->
  0 < b_farmer_count c /\
  kept fl now c (set_farmer_count (set_farmers c (delete a (b_farmers c))) (b_farmer_count c - 1)) (fun _ => 0).
Proof.
  intros I Ha R0 S0. set (c' := set_farmer_count _ _).
  assert (E : forall h s, all_stakes h s c' = all_stakes h s c).
  { intros h s. unfold all_stakes. cbn [c' set_farmer_count set_farmers b_farmers].
    pose proof (msum_delete_gen (fun _ F => of_stake h s F) (b_farmers c) a) as J. rewrite Ha in J. cbn [contrib] in J.
    assert (Z : of_stake h s F = 0) by (unfold of_stake; rewrite S0, lookup_empty; reflexivity). lia. }
  assert (L : forall a1 F, b_farmers c' !! a1 = Some F -> b_farmers c !! a1 = Some F).
  { intros a1 F1 H. cbn [c' set_farmer_count set_farmers b_farmers] in H. apply lookup_delete_Some in H as [_ H]. exact H. }
  destruct I as [B1 B2 B3 B4 B5 B6 B7 B8].
  assert (Sz : size (b_farmers c) <> O).
  { intros Hz. apply map_size_empty_inv in Hz. rewrite Hz, lookup_empty in Ha. discriminate. }
  split; [rewrite B5; lia|]. split.
  - constructor; auto.
    + intros s sd Hs. destruct (B1 s sd Hs) as [C1 C2 C3 C4 C5 C6]. constructor; auto.
      * now rewrite E.
      * now rewrite E.
      * intros i f a1 F1 k Hf HF Hk. eauto.
      * intros i f Hf. rewrite E. auto.
    + intros a1 F1 s k HF Hk. exact (B2 a1 F1 s k (L a1 F1 HF) Hk).
    + intros t. change (all_farms (in_token bf_claimed t) c') with (all_farms (in_token bf_claimed t) c). rewrite <- B3.
      unfold all_rewards. cbn [c' set_farmer_count set_farmers b_farmers].
      pose proof (msum_delete_gen (fun _ F => shares_get (b_rewards F) t) (b_farmers c) a) as J. rewrite Ha in J. cbn [contrib] in J.
      rewrite R0 in J. change (shares_get ∅ t) with 0 in J. lia.
    + cbn [c' set_farmer_count set_farmers b_farmers b_farmer_count]. rewrite map_size_delete, Ha, B5. lia.
  - intros t. symmetry. apply N.add_0_r.
Qed.

(** ** Fields a farmer's call leaves alone *)
Record frame (c c' : BState) : Prop := mk_frame {
  fr_owner : b_owner c' = b_owner c; fr_run : b_running c' = b_running c; fr_ops : b_ops c' = b_ops c;
  fr_cfg : b_cfg c' = b_cfg c; fr_old : b_outdated c' = b_outdated c;
  fr_fc : b_farmer_count c' = b_farmer_count c; fr_mc : b_farm_count c' = b_farm_count c;
}.
Lemma frame_refl c : frame c c.
Proof. constructor; reflexivity. Qed.
Lemma frame_trans a b c : frame a b -> frame b c -> frame a c.
Proof. intros [] []. constructor; congruence. Qed.
Lemma update_seeds_frame fl now l : forall c F c' F',
  update_seeds fl now l c F = Some (c', F') -> frame c c' /\ b_slashed c' = b_slashed c.
Proof.
  induction l as [|s l IH]; intros c F c' F' H; cbn [update_seeds] in H.
  { injection H as <- <-. split; [apply frame_refl|done]. }
  destruct (b_stakes F !! s); [|eauto].
  apply bind_Some in H as (sd & _ & H). apply bind_Some in H as ([F1 sd1] & _ & H).
  destruct (IH _ _ _ _ H) as [[] E]. split; [constructor; assumption|exact E].
Qed.
Lemma stake_op_frame fl now c a s F sd op c' sl :
  stake_op fl now c a s F sd op = Some (c', sl) -> frame c c' /\ b_slashed c' = b_slashed c.
Proof.
  intros H. unfold stake_op in H. apply bind_Some in H as ([F1 sd1] & _ & H). apply bind_Some in H as (k & Hk & H).
  apply bind_Some in H as ([[[k' am] pw] sl'] & Hop & H). apply bind_Some in H as ([c2 F2] & Him & H). injection H as <- <-.
  assert (J : frame c c2 /\ b_slashed c2 = b_slashed c).
  { unfold update_impacted in Him. destruct (c_boosters (b_cfg c) !! s).
    - eapply update_seeds_frame, Him.
    - injection Him as <- <-. split; [apply frame_refl|done]. }
  destruct J as [[] E]. split; [constructor; assumption|exact E].
Qed.
Lemma stake_free_frame fl now c a s amount c' : stake_free_seed fl now c a s amount = Some c' -> frame c c'.
Proof.
  intros H. unfold stake_free_seed in H.
  apply bind_Some in H as (F & HF & H). apply bind_Some in H as (sd & Hg & H). apply bind_Some in H as (u & _ & H).
  apply bind_Some in H as ([c1 sl] & Hop & H). injection H as ->. exact (proj1 (stake_op_frame _ _ _ _ _ _ _ _ _ _ Hop)).
Qed.
Lemma stake_lock_frame fl now c a s amount dur c' : stake_lock_seed fl now c a s amount dur = Some c' -> frame c c'.
Proof.
  intros H. unfold stake_lock_seed in H.
  apply bind_Some in H as (F & HF & H). apply bind_Some in H as (sd & Hg & H). apply bind_Some in H as (u & _ & H).
  apply bind_Some in H as (u' & _ & H).
  apply bind_Some in H as ([c1 sl] & Hop & H). injection H as ->. exact (proj1 (stake_op_frame _ _ _ _ _ _ _ _ _ _ Hop)).
Qed.
Lemma lock_free_frame fl now c a att s dur amount c' : lock_free_seed fl now c a att s dur amount = Some c' -> frame c c'.
Proof.
  intros H. unfold lock_free_seed in H.
  apply bind_Some in H as (u1 & _ & H). apply bind_Some in H as (u2 & _ & H).
  apply bind_Some in H as (F & HF & H). apply bind_Some in H as (sd & Hg & H). apply bind_Some in H as (u & _ & H).
  apply bind_Some in H as ([c1 sl] & Hop & H). injection H as ->. exact (proj1 (stake_op_frame _ _ _ _ _ _ _ _ _ _ Hop)).
Qed.
Lemma force_unlock_frame fl now c a att s amount c' : force_unlock fl now c a att s amount = Some c' -> frame c c'.
Proof.
  intros H. unfold force_unlock in H.
  apply bind_Some in H as (u1 & _ & H). apply bind_Some in H as (u2 & _ & H).
  apply bind_Some in H as (F & HF & H). apply bind_Some in H as (sd & Hg & H).
  apply bind_Some in H as ([c1 sl] & Hop & H). apply bind_Some in H as (m & Hm & H). injection H as <-.
  destruct (proj1 (stake_op_frame _ _ _ _ _ _ _ _ _ _ Hop)). constructor; assumption.
Qed.
Lemma claim_frame fl now c a s c' : claim_reward_by_seed fl now c a s = Some c' -> frame c c'.
Proof.
  intros H. unfold claim_reward_by_seed in H.
  apply bind_Some in H as (u1 & _ & H).
  apply bind_Some in H as (F & HF & H). apply bind_Some in H as (sd & Hg & H).
  apply bind_Some in H as ([F' sd'] & Hcl & H). injection H as <-. constructor; reflexivity.
Qed.

(** ** Every call *)
Definition near_due (c : BState) : N := STORAGE_BALANCE_MIN_BOUND * b_farmer_count c.
Lemma call_kept fl now c a att x c' out :
  zero_extra fl -> binv fl now c -> bcall_exec fl now c a att x = Some (c', out) ->
  kept fl now c c' (fun _ => 0) /\ near_due c' + sent out <= near_due c + att.
Proof.
  intros Z I H. unfold bcall_exec in H. apply bind_Some in H as (u & _ & H).
  assert (Keep : forall d, b_farmer_count d = b_farmer_count c -> near_due d + sent [] <= near_due c + att).
  { intros d E. unfold near_due. rewrite E. change (sent []) with 0. lia. }
  destruct x.
  20: apply bind_Some in H as (u1 & Hu1 & H).
  1-20: apply bind_Some in H as (c1 & Hc & H); injection H as <- <-.
  - split; [eapply create_seed_kept; eauto|]. apply Keep. unfold create_seed in Hc. inv.
    destruct (b_seeds c !! s); [discriminate|]. injection Hc as <-. reflexivity.
  - split; [eapply create_farm_kept; eauto|]. apply Keep. unfold create_farm in Hc. inv; subst. reflexivity.
  - split; [eapply cancel_farm_kept; eauto|]. apply Keep. unfold cancel_farm in Hc. inv; subst. reflexivity.
  - split; [eapply remove_farm_kept; eauto|]. apply Keep. unfold remove_farm in Hc. inv; subst. reflexivity.
  - unfold modify_booster in Hc. apply bind_Some in Hc as (v & _ & Hc). apply bind_Some in Hc as (sd & _ & Hc).
    apply bind_Some in Hc as (v1 & Hv & Hc). apply bind_Some in Hc as (v2 & _ & Hc). injection Hc as <-.
    apply ensure_Some in Hv. bool_inv. split; [|apply Keep; reflexivity].
    apply cfg_kept; [exact I| |apply (bi_mult _ _ _ I)]. cbn [c_boosters]. intros b1 info1 H1.
    destruct (decide (b = b1)) as [<-|Hne].
    + rewrite lookup_insert in H1. injection H1 as <-. assumption.
    + rewrite lookup_insert_ne in H1 by done. apply (bi_self _ _ _ I _ _ H1).
  - split; [eapply modify_daily_kept; eauto|]. apply Keep. unfold modify_daily in Hc. inv; subst. reflexivity.
  - unfold modify_locking_policy in Hc. inv; subst. bool_inv. split; [|apply Keep; reflexivity].
    apply cfg_kept; [exact I|apply (bi_self _ _ _ I)|assumption].
  - unfold modify_max_farms in Hc. inv; subst. split; [|apply Keep; reflexivity].
    apply cfg_kept; [exact I|apply (bi_self _ _ _ I)|apply (bi_mult _ _ _ I)].
  - unfold modify_default_slash in Hc. inv; subst. split; [|apply Keep; reflexivity].
    apply cfg_kept; [exact I|apply (bi_self _ _ _ I)|apply (bi_mult _ _ _ I)].
  - unfold modify_min_deposit in Hc. inv; subst. split; [eapply terms_call_kept; eauto|apply Keep; reflexivity].
  - unfold modify_min_lock in Hc. inv; subst. split; [eapply terms_call_kept; eauto|apply Keep; reflexivity].
  - unfold modify_slash in Hc. inv; subst. split; [eapply terms_call_kept; eauto|apply Keep; reflexivity].
  - unfold b_set_owner in Hc. inv; subst. split; [apply same_kept; auto|apply Keep; reflexivity].
  - unfold b_set_state in Hc. inv; subst. split; [apply same_kept; auto|apply Keep; reflexivity].
  - unfold b_set_state in Hc. inv; subst. split; [apply same_kept; auto|apply Keep; reflexivity].
  - unfold extend_operators in Hc. inv; subst. split; [apply same_kept; auto|apply Keep; reflexivity].
  - unfold remove_operators in Hc. inv; subst. split; [apply same_kept; auto|apply Keep; reflexivity].
  - split; [eapply lock_free_kept; eauto|]. apply Keep. apply (lock_free_frame _ _ _ _ _ _ _ _ _ Hc).
  - split; [eapply force_unlock_kept; eauto|]. apply Keep. apply (force_unlock_frame _ _ _ _ _ _ _ _ Hc).
  - split; [eapply claim_kept; eauto|]. apply Keep. apply (claim_frame _ _ _ _ _ _ Hc).
  - unfold b_storage_deposit in H. apply bind_Some in H as (v & _ & H).
    destruct (b_farmers c !! default a acc) eqn:E.
    + injection H as <- <-. split; [apply same_kept; auto|].
      unfold sent. destruct (0 <? att) eqn:E0; cbn [fmap list_fmap lsum snd]; lia.
    + apply bind_Some in H as (r & Hr & H). apply bind_Some in H as (n & Hn & H). injection H as <- <-.
      apply csub_Some in Hr as [-> Hr]. apply cadd_Some in Hn as [-> _]. split; [apply farmer_new_kept; auto|].
      unfold near_due. cbn [b_farmer_count set_farmer_count].
      assert (sent (if 0 <? att - STORAGE_BALANCE_MIN_BOUND then [(a, att - STORAGE_BALANCE_MIN_BOUND)] else []) <= att - STORAGE_BALANCE_MIN_BOUND).
      { unfold sent. destruct (0 <? _); cbn [fmap list_fmap lsum snd]; lia. }
      rewrite N.mul_add_distr_l, N.mul_1_r. lia.
  - discriminate.
  - unfold b_storage_unregister in H. apply bind_Some in H as (v & _ & H).
    destruct (b_farmers c !! a) as [F|] eqn:E.
    + apply bind_Some in H as (v1 & Hv & H). apply bind_Some in H as (n & Hn & H). injection H as <- <-.
      apply ensure_Some in Hv. bool_inv. apply csub_Some in Hn as [-> Hn].
      destruct (farmer_gone_kept fl now c a F I E) as [Pos K]; [assumption..|]. split; [exact K|].
      unfold near_due. cbn [b_farmer_count set_farmer_count]. unfold sent. cbn [fmap list_fmap lsum snd].
      rewrite N.mul_sub_distr_l, N.mul_1_r.
      assert (STORAGE_BALANCE_MIN_BOUND * 1 <= STORAGE_BALANCE_MIN_BOUND * b_farmer_count c) by (apply N.mul_le_mono_l; exact Hn).
      lia.
    + injection H as <- <-. split; [apply same_kept; auto|]. apply Keep. reflexivity.
Qed.
Lemma transfer_kept fl now c mft asset sender amount msg c' :
  zero_extra fl -> binv fl now c -> on_transfer fl now c mft asset sender amount msg = Some c' ->
  kept fl now c c' (to_asset asset amount) /\ b_farmer_count c' = b_farmer_count c.
Proof.
  intros Z I H. unfold on_transfer in H. apply bind_Some in H as (u & _ & H). destruct msg as [|dur|s i].
  - split; [eapply stake_free_kept; eauto|apply (stake_free_frame _ _ _ _ _ _ _ H)].
  - split; [eapply stake_lock_kept; eauto|apply (stake_lock_frame _ _ _ _ _ _ _ _ H)].
  - apply bind_Some in H as (u1 & _ & H). split; [eapply deposit_reward_kept; eauto|].
    unfold deposit_reward in H. inv; subst. reflexivity.
Qed.

(** ** Every reachable state *)
Record wbinv (fl : Floats) (w : BWorld) : Prop := mk_wbinv {
  wb_inv : binv fl (bw_now w) (bw_c w);
  wb_hold : forall t, assets (bw_c w) t <= shares_get (bw_hold w) t;
  wb_near : near_due (bw_c w) <= bw_near w;
}.
Lemma binv_new fl now owner : binv fl now (boost_new owner).
Proof.
  constructor; cbn.
  - intros s sd H. rewrite lookup_empty in H. discriminate.
  - intros a F s k H. rewrite lookup_empty in H. discriminate.
  - intros t. reflexivity.
  - intros s i f H. rewrite lookup_empty in H. discriminate.
  - reflexivity.
  - reflexivity.
  - intros b info H. rewrite lookup_empty in H. discriminate.
  - vm_compute. reflexivity.
Qed.
Lemma bstep_inv fl w e w' : zero_extra fl -> wbinv fl w -> bstep fl w e = Some w' -> wbinv fl w'.
Proof.
  intros Z [I Ho Ne] H. unfold bstep in H. destruct e as [now a att x|now mft asset sender amount msg|asset amount].
  - apply bind_Some in H as (u & Ht & H). unfold b_tick in Ht. apply ensure_Some in Ht. bool_inv.
    apply bind_Some in H as ([c' out] & Hc & H). apply bind_Some in H as (n & Hn & H). injection H as <-.
    apply csub_Some in Hn as [-> Hn].
    assert (I' : binv fl now (bw_c w)) by (eapply binv_mono; eauto).
    destruct (call_kept fl now _ a att x c' out Z I' Hc) as [[K1 K2] K3].
    constructor; cbn [bw_now bw_c bw_hold bw_near]; [exact K1| |lia].
    intros t. rewrite K2. specialize (Ho t). lia.
  - apply bind_Some in H as (u & Ht & H). unfold b_tick in Ht. apply ensure_Some in Ht. bool_inv.
    apply bind_Some in H as (u1 & _ & H). apply bind_Some in H as (u2 & _ & H).
    apply bind_Some in H as (c' & Hc & H). injection H as <-.
    assert (I' : binv fl now (bw_c w)) by (eapply binv_mono; eauto).
    destruct (transfer_kept fl now _ mft asset sender amount msg c' Z I' Hc) as [[K1 K2] K3].
    constructor; cbn [bw_now bw_c bw_hold bw_near]; [exact K1| |unfold near_due; rewrite K3; exact Ne].
    intros t. rewrite K2. specialize (Ho t). unfold to_asset. destruct (String.eqb_spec asset t) as [->|Hne].
    + rewrite shares_get_insert. lia.
    + rewrite shares_get_insert_ne by done. lia.
  - injection H as <-. constructor; cbn [bw_now bw_c bw_hold bw_near]; [exact I| |exact Ne].
    intros t. specialize (Ho t). destruct (decide (asset = t)) as [->|Hne].
    + rewrite shares_get_insert. lia.
    + rewrite shares_get_insert_ne by done. lia.
Qed.
Lemma breach_inv fl w : zero_extra fl -> breach fl w -> wbinv fl w.
Proof.
  intros Z H. induction H as [now owner near|w e w' Hw IH Hs].
  - constructor; cbn [bw_init bw_c bw_now bw_hold bw_near].
    + apply binv_new.
    + intros t. unfold assets, all_farms, live_farms, old_farms, seed_total. cbn [boost_new b_seeds b_outdated b_slashed]. rewrite lookup_empty, !msum_empty. apply N.le_0_l.
    + unfold near_due. cbn [boost_new b_farmer_count]. lia.
  - eapply bstep_inv; eauto.
Qed.
