(** * C86: the calls of farmers in the boost farming contract succeed *)
From Verif Require Import Base BaseLemmas Boost SpecBoost BoostInv BoostCalls BoostFit PropBoost PropBoostStake.

(** ** Conditions, in the words of the contract's users *)
(** No farm of the seed has a daily reward so large that what is due since its last update exceeds a u128. *)
Definition rates_ok (now : N) (sd : BSeed) : Prop :=
  forall i f, bs_farms sd !! i = Some f -> bf_daily f * (now - bf_at f) < W128 * NANOS_PER_DAY.
(** The boosters of a seed have at most 38 decimals (10^38 is the largest power of 10 in a u128). *)
Definition boosters_ok (g : BConfig) (s : SeedId) : Prop :=
  forall b info, c_boosters g !! b = Some info -> is_Some (snd info !! s) -> fst info <= 38.
(** More power never earns less extra power from the same ratio, as for f64. *)
Definition mono_extra (fl : Floats) : Prop := forall p p' r, p <= p' -> fl_extra fl p r <= fl_extra fl p' r.
(** A token's holdings fit in a u128. *)
Definition supply_ok (w : BWorld) : Prop := forall t, shares_get (bw_hold w) t < W128.

Lemma nat_big : B_DIV * W128 < W384.
Proof. vm_compute. reflexivity. Qed.
Lemma w_mul a b : a < W128 -> b < W128 -> a * b < W256.
Proof. intros. assert (a * b < W128 * W128) by (apply N.mul_lt_mono; assumption). assert (W128 * W128 = W256) by (vm_compute; reflexivity). lia. Qed.
Lemma ratio_intro a n d : a < W128 -> n < W128 -> 0 < d -> a * n / d < W128 -> u128_ratio a n d = Some (a * n / d).
Proof. intros. unfold u128_ratio. rewrite cmul_intro by now apply w_mul. cbn [mbind option_bind]. rewrite cdiv_intro by assumption. now apply fit_intro. Qed.
Lemma seed_power_intro fl k : power fl k < W128 -> seed_power fl k = Some (power fl k).
Proof.
  unfold power. intros H. unfold seed_power, basic_power. rewrite cadd_intro by lia. cbn [mbind option_bind].
  change (map_fold (fun _ r acc => fl_extra fl (k_free k + k_x k) r + acc) 0 (k_ratios k)) with (msum (fun _ r => fl_extra fl (k_free k + k_x k) r) (k_ratios k)).
  rewrite fit_intro by lia. cbn [mbind option_bind]. now apply cadd_intro.
Qed.
Lemma map_all_intro {A B} (g : N -> A -> option B) m :
  (forall i x, m !! i = Some x -> is_Some (g i x)) -> is_Some (map_all g m).
Proof. intros H. unfold map_all. rewrite decide_True by exact H. eauto. Qed.
Lemma of_le_all h s c a F : b_farmers c !! a = Some F -> of_stake h s F <= all_stakes h s c.
Proof.
  intros HF. unfold all_stakes. pose proof (msum_lookup_le (fun _ F => of_stake h s F) (b_farmers c) a) as L. rewrite HF in L. exact L.
Qed.

(** ** Updating a seed *)
Lemma farm_update_ok now p f :
  farm_fit f -> bf_dist f <= bf_total f -> bf_benef f <= bf_dist f -> now < W64 ->
  bf_daily f * (now - bf_at f) < W128 * NANOS_PER_DAY -> is_Some (farm_update now p f).
Proof.
  intros (R & T & Hd) D B Hn Hr. unfold farm_update. destruct (now <=? bf_at f); [eauto|].
  destruct (farm_status now f); [eauto..| |eauto].
  rewrite csub_intro by exact D. cbn [mbind option_bind].
  assert (NANOS_PER_DAY <> 0) by (vm_compute; discriminate).
  assert (W64 <= W128) by (vm_compute; discriminate).
  rewrite ratio_intro; [|exact Hd|lia|lia|apply N.div_lt_upper_bound; lia]. cbn [mbind option_bind].
  remember (N.min (bf_total f - bf_dist f) (bf_daily f * (now - bf_at f) / NANOS_PER_DAY)) as rw eqn:E.
  assert (bf_dist f + rw <= bf_total f) by (subst rw; pose proof (N.le_min_l (bf_total f - bf_dist f) (bf_daily f * (now - bf_at f) / NANOS_PER_DAY)); lia).
  clear E. rewrite cadd_intro by lia. cbn [mbind option_bind].
  pose proof nat_big as NB.
  assert (B_DIV * (bf_dist f + rw) <= B_DIV * W128) as M by (apply N.mul_le_mono_l; lia). rewrite N.mul_add_distr_l in M.
  destruct (0 <? p) eqn:P; bool_inv.
  - rewrite cmul_intro by lia. cbn [mbind option_bind].
    assert (rw * B_DIV / p <= rw * B_DIV) by (apply N.div_le_upper_bound; [lia|]; rewrite <- (N.mul_1_l (rw * B_DIV)) at 1; apply N.mul_le_mono_r; lia).
    repeat (rewrite cadd_intro by lia; cbn [mbind option_bind]). eauto.
  - repeat (rewrite cadd_intro by lia; cbn [mbind option_bind]). eauto.
Qed.
Lemma get_seed_ok fl now0 now c s sd :
  fits c -> binv fl now0 c -> now < W64 -> b_seeds c !! s = Some sd -> rates_ok now sd -> is_Some (get_seed now c s).
Proof.
  intros Fi I Hn Hs Hr. unfold get_seed. rewrite Hs. cbn [mbind option_bind]. unfold seed_update.
  destruct (bi_seed _ _ _ I s sd Hs) as [_ _ _ A4 _ A6].
  assert (exists m, map_all (fun _ f => farm_update now (bs_power sd) f) (bs_farms sd) = Some m) as [m Hm].
  { apply map_all_intro. intros i f Hf. apply farm_update_ok; [apply (proj2 (proj1 Fi s sd Hs) i f Hf)|apply (A4 i f Hf)| |exact Hn|eauto].
    specialize (A6 i f Hf). assert (0 < B_DIV) by (vm_compute; reflexivity).
    assert (B_DIV * (bf_claimed f + bf_benef f) <= B_DIV * bf_dist f) as L by lia. apply N.mul_le_mono_pos_l in L; lia. }
  rewrite Hm. cbn [mbind option_bind]. eauto.
Qed.

(** ** Claiming *)
Lemma credit_ok l : forall rw, (forall t, shares_get rw t + lsum ((fun e => tok_amount t (snd e)) <$> l) < W128) -> is_Some (credit l rw).
Proof.
  induction l as [|[i [f n]] l IH]; intros rw H; cbn [credit]; [eauto|].
  assert (H0 := fun t => H t). cbn [fmap list_fmap lsum snd] in H0.
  destruct (0 <? n) eqn:B; bool_inv.
  - unfold add_to_collection. specialize (H0 (bf_token f)) as H1. unfold tok_amount at 1 in H1. cbn [fst snd] in H1. rewrite String.eqb_refl in H1.
    rewrite cadd_intro by lia. cbn [mbind option_bind]. apply IH. intros t. specialize (H0 t). unfold tok_amount at 1 in H0. cbn [fst snd] in H0.
    destruct (String.eqb_spec (bf_token f) t) as [Et|Hne].
    + rewrite Et in H1. unfold shares_get at 1. rewrite Et, lookup_insert. cbn [default from_option id]. lia.
    + unfold shares_get at 1. rewrite lookup_insert_ne by exact Hne. unfold shares_get in H0. lia.
  - cbn [mbind option_bind]. apply IH. intros t. specialize (H0 t). unfold tok_amount at 1 in H0. cbn [fst snd] in H0.
    destruct (String.eqb (bf_token f) t); lia.
Qed.
Lemma lsum_map_to_list (h : N -> BFarm * N -> N) (m : gmap N (BFarm * N)) : lsum ((fun e => h (fst e) (snd e)) <$> map_to_list m) = msum h m.
Proof. unfold msum, map_fold. cbn. induction (map_to_list m) as [|[i y] l IH]; [reflexivity|]. cbn. f_equal. exact IH. Qed.
Lemma gen_ratios_ok fl now c a F s :
  fits c -> binv fl now c -> b_farmers c !! a = Some F -> boosters_ok (b_cfg c) s -> is_Some (gen_ratios fl (b_cfg c) s F).
Proof.
  intros Fi I HF Hb. unfold gen_ratios. rewrite decide_True; [eauto|]. intros b info Hi. unfold ratio_of.
  destruct (String.eqb b s); [eauto|]. destruct (snd info !! s) as [lb|] eqn:El; [|eauto].
  assert (is_Some (match b_stakes F !! b with Some k => basic_power k | None => Some 0 end)) as [bal ->].
  { destruct (b_stakes F !! b) as [k|] eqn:Ek; [|eauto]. unfold basic_power.
    destruct (bi_stake _ _ _ I a F b k HF Ek) as (_ & sd & Hs & _). destruct (proj1 Fi b sd Hs) as [P _].
    rewrite (si_power _ _ _ _ (bi_seed _ _ _ I b sd Hs)) in P. pose proof (of_le_all (power fl) b c a F HF) as L.
    unfold of_stake in L. rewrite Ek in L. unfold power in L at 1. rewrite cadd_intro by lia. eauto. }
  cbn [mbind option_bind]. destruct ((0 <? bal) && (0 <? lb)); [|eauto].
  unfold cpow. rewrite fit_intro; [cbn [mbind option_bind]; eauto|].
  assert (fst info <= 38) by (eapply Hb; eauto). assert (10 ^ fst info <= 10 ^ 38) by (apply N.pow_le_mono_r; lia).
  assert (10 ^ 38 < W128) by (vm_compute; reflexivity). lia.
Qed.
(** everything a claim needs, in a state whose seed is up to date *)
Lemma do_claim_ok fl now c a F s sd k :
  zero_extra fl -> fits c -> binv fl now c -> (forall t, assets c t < W128) ->
  b_farmers c !! a = Some F -> b_seeds c !! s = Some sd -> boosters_ok (b_cfg c) s ->
  (match b_stakes F !! s with Some k1 => k = k1 | None => exists r, k = empty_stake r end) ->
  (forall r, gen_ratios fl (b_cfg c) s F = Some r -> bs_power sd + power fl (with_ratios k r) < W128) ->
  exists r F' sd' k', gen_ratios fl (b_cfg c) s F = Some r /\ do_claim fl (b_cfg c) s F sd = Some (F', sd') /\
    b_stakes F' !! s = Some k' /\ k_ratios k' = r /\ hold_of k' = hold_of k /\
    bs_power sd' = bs_power sd + power fl (with_ratios k r) - power fl k /\ power fl k <= bs_power sd /\
    bs_amount sd' = bs_amount sd /\ bs_slash sd' = bs_slash sd /\ bs_min sd' = bs_min sd /\ bs_minlock sd' = bs_minlock sd.
Proof.
  intros Z Fi I As HF Hs Hb Hk Room. destruct (gen_ratios_ok fl now c a F s Fi I HF Hb) as [r Hr]. specialize (Room r Hr).
  destruct (bi_seed _ _ _ I s sd Hs) as [_ Ap _ A4 A5 A6]. destruct (proj1 Fi s sd Hs) as [P R].
  assert (Pk : power fl k <= bs_power sd).
  { rewrite Ap. destruct (b_stakes F !! s) as [k1|] eqn:Ek.
    - subst k1. pose proof (of_le_all (power fl) s c a F HF) as L. unfold of_stake in L. rewrite Ek in L. exact L.
    - destruct Hk as [r0 ->]. rewrite power_zero by exact Z. apply N.le_0_l. }
  assert (Du : forall i f, bs_farms sd !! i = Some f -> default 0 (k_rps k !! i) <= bf_rps f /\
             B_DIV * (bf_claimed f + bf_benef f) + due fl i f k <= B_DIV * bf_dist f).
  { intros i f Hf. specialize (A6 i f Hf). destruct (b_stakes F !! s) as [k1|] eqn:Ek.
    - subst k1. split; [eapply A5; eauto|]. pose proof (of_le_all (due fl i f) s c a F HF) as L. unfold of_stake in L. rewrite Ek in L. lia.
    - destruct Hk as [r0 ->]. split; [cbn [k_rps empty_stake]; rewrite lookup_empty; apply N.le_0_l|].
      unfold due. rewrite power_zero by exact Z. rewrite N.mul_0_r. lia. }
  assert (D0 : 0 < B_DIV) by (vm_compute; reflexivity).
  assert (Am : forall i f, bs_farms sd !! i = Some f -> bf_claimed f + due fl i f k / B_DIV <= bf_total f).
  { intros i f Hf. destruct (Du i f Hf) as [_ L]. destruct (A4 i f Hf) as [L1 _].
    assert (due fl i f k / B_DIV <= bf_dist f - (bf_claimed f + bf_benef f)); [|assert (bf_claimed f + bf_benef f <= bf_dist f); [|lia]].
    - apply N.div_le_upper_bound; [lia|]. rewrite N.mul_sub_distr_l. lia.
    - apply (N.mul_le_mono_pos_l _ _ B_DIV); lia. }
  assert (exists res, map_all (claim_farm (power fl k) (k_rps k)) (bs_farms sd) = Some res) as [res Hres].
  { apply map_all_intro. intros i f Hf. unfold claim_farm. destruct (Du i f Hf) as [L1 L2]. destruct (R i f Hf) as (_ & Tt & _).
    destruct (A4 i f Hf) as [L3 _]. specialize (Am i f Hf). unfold due in Am, L2.
    rewrite csub_intro by exact L1. cbn [mbind option_bind].
    assert (B_DIV * bf_dist f <= B_DIV * W128) by (apply N.mul_le_mono_l; lia). pose proof nat_big.
    rewrite cmul_intro by lia. cbn [mbind option_bind]. rewrite fit_intro by lia. cbn [mbind option_bind].
    rewrite cadd_intro by lia. cbn [mbind option_bind]. eauto. }
  assert (exists rw, credit (map_to_list res) (b_rewards F) = Some rw) as [rw Hrw].
  { apply credit_ok. intros t. specialize (As t). unfold assets in As.
    change (lsum ((fun e => tok_amount t (snd e)) <$> map_to_list res)) with (lsum ((fun e => (fun _ y => tok_amount t y) (fst e) (snd e)) <$> map_to_list res)).
    rewrite (lsum_map_to_list (fun _ y => tok_amount t y)).
    assert (Rw : shares_get (b_rewards F) t <= all_farms (in_token bf_claimed t) c).
    { rewrite <- (bi_rewards _ _ _ I t). unfold all_rewards. pose proof (msum_lookup_le (fun _ F => shares_get (b_rewards F) t) (b_farmers c) a) as L.
      rewrite HF in L. exact L. }
    assert (Sm : msum (fun _ y => tok_amount t y) res = msum (fun i f => in_token (fun f => due fl i f k / B_DIV) t f) (bs_farms sd)).
    { apply (msum_map_all _ _ _ _ _ Hres). intros i f [f' n] _ Hy. apply claim_farm_Some in Hy as (-> & _ & ->). reflexivity. }
    rewrite Sm.
    assert (Sd : msum (fun _ f => in_token bf_claimed t f) (bs_farms sd) + msum (fun i f => in_token (fun f => due fl i f k / B_DIV) t f) (bs_farms sd)
                 <= msum (fun _ f => in_token bf_total t f) (bs_farms sd)).
    { rewrite <- msum_add. apply msum_le. intros i f Hf. unfold in_token. specialize (Am i f Hf). destruct (String.eqb (bf_token f) t); lia. }
    assert (Lv : live_farms (in_token bf_claimed t) c + msum (fun i f => in_token (fun f => due fl i f k / B_DIV) t f) (bs_farms sd)
                 <= live_farms (in_token bf_total t) c).
    { unfold live_farms.
      pose proof (msum_delete_gen (fun _ sd => msum (fun _ f => in_token bf_claimed t f) (bs_farms sd)) (b_seeds c) s) as E1.
      pose proof (msum_delete_gen (fun _ sd => msum (fun _ f => in_token bf_total t f) (bs_farms sd)) (b_seeds c) s) as E2.
      rewrite Hs in E1, E2. cbn [contrib] in E1, E2. rewrite <- E1, <- E2.
      assert (msum (fun _ sd => msum (fun _ f => in_token bf_claimed t f) (bs_farms sd)) (delete s (b_seeds c))
              <= msum (fun _ sd => msum (fun _ f => in_token bf_total t f) (bs_farms sd)) (delete s (b_seeds c))); [|lia].
      apply msum_le. intros s1 sd1 H1. apply lookup_delete_Some in H1 as [_ H1]. apply msum_le. intros i f Hf.
      pose proof (claimed_le_total fl now c i f s1 sd1 I H1 Hf). unfold in_token. destruct (String.eqb (bf_token f) t); lia. }
    assert (Od : old_farms (in_token bf_claimed t) c <= old_farms (in_token bf_total t) c).
    { unfold old_farms. apply msum_le. intros [s1 i] f Hf. destruct (bi_old _ _ _ I s1 i f Hf) as [[O1 O2] _]. unfold in_token.
      destruct (String.eqb (bf_token f) t); lia. }
    unfold all_farms in *. lia. }
  set (k' := with_ratios (with_rps k (new_rps (bs_farms sd))) r).
  assert (Pk' : power fl k' = power fl (with_ratios k r)) by reflexivity.
  exists r, (with_stake (with_rewards F rw) s k'), (with_total (with_farms sd (fst <$> res)) (bs_amount sd) (bs_power sd + power fl k' - power fl k)), k'.
  split; [exact Hr|]. split.
  { unfold do_claim.
    replace (match b_stakes F !! s with Some k => Some k | None => r ← gen_ratios fl (b_cfg c) s F; Some (empty_stake r) end)
      with (Some (match b_stakes F !! s with Some k => k | None => empty_stake r end))
      by (rewrite Hr; destruct (b_stakes F !! s); reflexivity).
    cbn [mbind option_bind].
    set (k0 := match b_stakes F !! s with Some k => k | None => empty_stake r end).
    assert (K0 : power fl k0 = power fl k /\ k_rps k0 = k_rps k /\ with_ratios (with_rps k0 (new_rps (bs_farms sd))) r = k').
    { unfold k0, k'. destruct (b_stakes F !! s); [subst; auto|]. destruct Hk as [r0 ->]. split; [now rewrite !power_zero|]. split; reflexivity. }
    destruct K0 as (K1 & K2 & K3).
    rewrite seed_power_intro by lia. cbn [mbind option_bind]. rewrite K1, K2, Hres. cbn [mbind option_bind]. rewrite Hrw. cbn [mbind option_bind].
    change (gen_ratios fl (b_cfg c) s (with_rewards F rw)) with (gen_ratios fl (b_cfg c) s F). rewrite Hr. cbn [mbind option_bind]. cbv zeta. rewrite K3.
    rewrite seed_power_intro by lia. cbn [mbind option_bind]. rewrite cadd_intro by lia. cbn [mbind option_bind].
    rewrite csub_intro by lia. reflexivity. }
  split; [apply lookup_insert|]. split; [reflexivity|]. split; [reflexivity|]. split; [reflexivity|]. split; [exact Pk|]. auto.
Qed.

(** ** C86 *)
(** An account registered with the running contract, a seed whose rewards and boosts fit, tokens with a supply below 2^128. *)
Record ready (fl : Floats) (w : BWorld) (now : N) (a : AccountId) (s : SeedId) (F : BFarmer) (sd : BSeed) : Prop := mk_ready {
  rd_zero : zero_extra fl;
  rd_reach : breach fl w;
  rd_time : bw_now w <= now < W64;
  rd_run : b_running (bw_c w) = true;
  rd_farmer : b_farmers (bw_c w) !! a = Some F;
  rd_seed : b_seeds (bw_c w) !! s = Some sd;
  rd_rates : rates_ok now sd;
  rd_boosters : boosters_ok (b_cfg (bw_c w)) s;
  rd_supply : supply_ok w;
}.
(** the stake with the boosts that apply now *)
Definition reboosted (k : BStake) (r : gmap SeedId N) : BStake := mkBStake (k_free k) (k_locked k) (k_x k) (k_unlock k) (k_dur k) r (k_rps k).
Definition restaked (k : BStake) (free x : N) (r : gmap SeedId N) : BStake := mkBStake free (k_locked k) x (k_unlock k) (k_dur k) r (k_rps k).

Lemma claim_ready fl w now a s F sd :
  ready fl w now a s F sd ->
  (forall r, gen_ratios fl (b_cfg (bw_c w)) s F = Some r -> bs_power sd + power fl (reboosted (stake_or_new F s) r) < W128) ->
  exists sd1 r F' sd' k', get_seed now (bw_c w) s = Some sd1 /\
    gen_ratios fl (b_cfg (bw_c w)) s F = Some r /\ do_claim fl (b_cfg (bw_c w)) s F sd1 = Some (F', sd') /\
    b_stakes F' !! s = Some k' /\ k_ratios k' = r /\ hold_of k' = hold_of (stake_or_new F s) /\
    bs_power sd' = bs_power sd + power fl (reboosted (stake_or_new F s) r) - power fl (stake_or_new F s) /\
    power fl (stake_or_new F s) <= bs_power sd /\
    bs_amount sd' = bs_amount sd /\ bs_slash sd' = bs_slash sd /\ bs_min sd1 = bs_min sd /\ bs_minlock sd1 = bs_minlock sd.
Proof.
  intros [Z Hw [T1 T2] Ru HF Hs Ra Bo Su] Room. pose proof (breach_fit fl w Hw) as Fi. destruct (breach_inv fl w Z Hw) as [I0 Ho _].
  assert (I : binv fl now (bw_c w)) by (eapply binv_mono; eauto).
  destruct (get_seed_ok fl now now (bw_c w) s sd Fi I T2 Hs Ra) as [sd1 Hg]. exists sd1.
  assert (Hu : seed_update now sd = Some sd1) by (unfold get_seed in Hg; rewrite Hs in Hg; exact Hg).
  destruct (touch_seed fl now (bw_c w) s sd now sd1 I Hs Hu) as [I1 [St1 St2 _ _ St3 St4 _ _]].
  assert (Pe : bs_power sd1 = bs_power sd /\ bs_amount sd1 = bs_amount sd /\ bs_slash sd1 = bs_slash sd /\ bs_min sd1 = bs_min sd /\ bs_minlock sd1 = bs_minlock sd).
  { unfold seed_update in Hu. apply bind_Some in Hu as (m & _ & Hu). injection Hu as <-. auto. }
  destruct Pe as (P1 & P2 & P3 & P4 & P5).
  destruct (do_claim_ok fl now (set_seed (bw_c w) s sd1) a F s sd1 (stake_or_new F s)) as (r & F' & sd' & k' & Q1 & Q2 & Q3 & Q4 & Q5 & Q6 & Q7 & Q8 & Q9 & _ & _).
  - exact Z.
  - eapply set_seed_fit; [exact Fi|eapply get_seed_fit; eauto|reflexivity|reflexivity].
  - exact I1.
  - intros t. specialize (Su t). specialize (Ho t). unfold assets in *. rewrite St1.
    assert (all_farms (in_token bf_total t) (set_seed (bw_c w) s sd1) = all_farms (in_token bf_total t) (bw_c w)) as ->.
    { unfold all_farms, old_farms. rewrite St3. f_equal. apply St2. unfold in_token. intros f f' -> ->. reflexivity. }
    rewrite St4. lia.
  - exact HF.
  - apply lookup_insert.
  - exact Bo.
  - unfold stake_or_new. destruct (b_stakes F !! s); [reflexivity|]. exists ∅. reflexivity.
  - intros r Hr. rewrite P1. apply (Room r Hr).
  - exists r, F', sd', k'. split; [exact Hg|]. split; [exact Q1|]. split; [exact Q2|]. split; [exact Q3|]. split; [exact Q4|]. split; [exact Q5|].
    rewrite <- P1, <- P2, <- P3. split; [exact Q6|]. split; [exact Q7|]. auto.
Qed.
Lemma tick_ok w now : bw_now w <= now < W64 -> b_tick w now = Some tt.
Proof. intros [A B]. unfold b_tick. apply ensure_intro. apply andb_true_iff. split; [now apply N.leb_le|now apply N.ltb_lt]. Qed.

(** A farmer can claim. *)
Theorem C86_claim fl w now a s F sd :
  ready fl w now a s F sd ->
  (forall r, gen_ratios fl (b_cfg (bw_c w)) s F = Some r -> bs_power sd + power fl (reboosted (stake_or_new F s) r) < W128) ->
  is_Some (bstep fl w (BvCall now a 0 (BClaim s))).
Proof.
  intros Rd Room. destruct (claim_ready fl w now a s F sd Rd Room) as (sd1 & r & F' & sd' & k' & Hg & _ & Hc & _).
  destruct Rd as [Z Hw T Ru HF Hs Ra Bo Su]. unfold bstep. rewrite tick_ok by exact T. cbn [mbind option_bind].
  unfold bcall_exec. cbn [decoded ensure mbind option_bind N.eqb]. unfold claim_reward_by_seed. rewrite Ru, HF, Hg. cbn [ensure mbind option_bind].
  rewrite Hc. cbn [mbind option_bind]. rewrite csub_intro by apply N.le_0_l. cbn [mbind option_bind]. eauto.
Qed.

(** ** Changing the stake *)
Lemma power_le fl k k' :
  mono_extra fl -> k_free k + k_x k <= k_free k' + k_x k' -> k_ratios k = k_ratios k' -> power fl k <= power fl k'.
Proof.
  intros M L E. unfold power. rewrite E. apply N.add_le_mono; [exact L|]. apply msum_le. intros b r _. apply M, L.
Qed.
Lemma power_hold fl k k' : hold_of k' = hold_of k -> k_ratios k' = k_ratios k -> power fl k' = power fl k.
Proof. unfold hold_of. intros [= E1 _ E2 _ _] E3. now apply power_same. Qed.
(** the seed is no booster, so only the seed itself is concerned *)
Definition no_booster (g : BConfig) (s : SeedId) : Prop := c_boosters g !! s = None.
Lemma stake_op_ok fl w now a s F sd1 F' sd' k' op k2 am pw sl :
  no_booster (b_cfg (bw_c w)) s ->
  do_claim fl (b_cfg (bw_c w)) s F sd1 = Some (F', sd') -> b_stakes F' !! s = Some k' -> op sd' k' = Some (k2, am, pw, sl) ->
  exists c', stake_op fl now (bw_c w) a s F sd1 op = Some (c', sl) /\ b_slashed c' = b_slashed (bw_c w).
Proof.
  intros Nb Hc Hk Ho. unfold stake_op. rewrite Hc. cbn [mbind option_bind]. rewrite Hk. cbn [mbind option_bind]. rewrite Ho. cbn [mbind option_bind].
  unfold update_impacted. rewrite Nb. cbn [mbind option_bind]. eexists. split; reflexivity.
Qed.
Lemma amount_hold fl w s sd : zero_extra fl -> breach fl w -> b_seeds (bw_c w) !! s = Some sd ->
  bs_amount sd + shares_get (b_slashed (bw_c w)) s <= shares_get (bw_hold w) s.
Proof.
  intros Z Hw Hs. destruct (breach_inv fl w Z Hw) as [_ Ho _]. specialize (Ho s). unfold assets, seed_total in Ho. rewrite Hs in Ho. lia.
Qed.

(** Tokens can be staked without a lock. *)
Theorem C86_free fl w now mft a s F sd amount :
  ready fl w now a s F sd -> mono_extra fl -> no_booster (b_cfg (bw_c w)) s -> bs_min sd <= amount ->
  shares_get (bw_hold w) s + amount < W128 ->
  (forall r, gen_ratios fl (b_cfg (bw_c w)) s F = Some r ->
     bs_power sd + power fl (restaked (stake_or_new F s) (k_free (stake_or_new F s) + amount) (k_x (stake_or_new F s)) r) < W128) ->
  is_Some (bstep fl w (BvToken now mft s a amount MFree)).
Proof.
  intros Rd Mo Nb Hm Hh Room. set (k := stake_or_new F s) in *.
  assert (Up : forall r, power fl (reboosted k r) <= power fl (restaked k (k_free k + amount) (k_x k) r)).
  { intros r. apply power_le; [exact Mo| |reflexivity]. cbn [reboosted restaked k_free k_x]. lia. }
  destruct (claim_ready fl w now a s F sd Rd) as (sd1 & r & F' & sd' & k' & Hg & Hr & Hc & Hk & E1 & E2 & E3 & E4 & E5 & E6 & E7 & E8).
  { intros r Hr. specialize (Room r Hr). specialize (Up r). fold k. lia. }
  fold k in E2, E3, E4. specialize (Room r Hr). specialize (Up r).
  destruct Rd as [Z Hw T Ru HF Hs Ra Bo Su]. pose proof (amount_hold fl w s sd Z Hw Hs) as Ah.
  unfold bstep. rewrite tick_ok by exact T. cbn [mbind option_bind].
  rewrite (ensure_intro (amount <? W128)) by (apply N.ltb_lt; lia). cbn [mbind option_bind ensure]. unfold on_transfer. rewrite Ru. cbn [mbind option_bind ensure].
  unfold stake_free_seed. rewrite HF. cbn [mbind option_bind]. rewrite Hg. cbn [mbind option_bind].
  rewrite (ensure_intro (bs_min sd1 <=? amount)) by (apply N.leb_le; lia). cbn [mbind option_bind].
  assert (Pk : power fl k' = power fl (reboosted k r)) by (apply power_hold; [exact E2|exact E1]).
  unfold hold_of in E2. injection E2 as H1 H2 H3 H4 H5.
  assert (Pn : power fl (with_free k' (k_free k' + amount)) = power fl (restaked k (k_free k + amount) (k_x k) r)).
  { apply power_same; cbn [with_free restaked k_free k_x k_ratios]; congruence. }
  destruct (stake_op_ok fl w now a s F sd1 F' sd' k' (fun sd1 k =>
    '(k', inc) ← add_free fl k amount;
    am ← cadd W128 (bs_amount sd1) amount; pw ← cadd W128 (bs_power sd1) inc; Some (k', am, pw, 0))
    (with_free k' (k_free k' + amount)) (bs_amount sd' + amount)
    (bs_power sd' + (power fl (with_free k' (k_free k' + amount)) - power fl k')) 0 Nb Hc Hk) as (c' & Hop & _).
  - unfold add_free. rewrite seed_power_intro by lia. cbn [mbind option_bind].
    assert (k_free k' + amount < W128). { unfold power in Pn at 1. cbn [with_free k_free k_x] in Pn. lia. }
    rewrite (cadd_intro W128 (k_free k')) by assumption. cbn [mbind option_bind]. cbv zeta. rewrite seed_power_intro by lia. cbn [mbind option_bind].
    rewrite csub_intro by lia. cbn [mbind option_bind]. rewrite cadd_intro by lia. cbn [mbind option_bind].
    rewrite cadd_intro by lia. reflexivity.
  - rewrite Hop. cbn [mbind option_bind]. eauto.
Qed.

(** ** Locks *)
Lemma compute_ok g amount dur :
  c_max_dur g < W32 -> c_max_mult g < W32 -> 10000 < c_max_mult g -> 0 < c_max_dur g -> dur <= c_max_dur g ->
  boosted g amount dur < W128 -> compute_x g amount dur = Some (boosted g amount dur).
Proof.
  intros D M M0 D0 L B.
  assert (is_Some (compute_x g amount dur)) as [x Hx]; [|rewrite Hx; f_equal; eapply compute_boosted, Hx].
  assert (W32 = 2 ^ 32) as E32 by (vm_compute; reflexivity). rewrite E32 in *.
  assert (2 ^ 128 = W128) as E128 by (vm_compute; reflexivity).
  unfold compute_x. change MIN_LOCKING_REWARD_RATIO with 10000. rewrite csub_intro by lia. cbn [mbind option_bind].
  assert (b_nano dur <= 2 ^ 32 * 10 ^ 9) by (unfold b_nano; apply N.mul_le_mono_r; lia).
  assert (N1 : (c_max_mult g - 10000) * b_nano dur < W128).
  { apply N.le_lt_trans with (2 ^ 32 * (2 ^ 32 * 10 ^ 9)); [apply N.mul_le_mono; lia|]. vm_compute. reflexivity. }
  rewrite (cmul_intro W128 _ _ N1). cbn [mbind option_bind].
  assert (b_nano (c_max_dur g) <= 2 ^ 32 * 10 ^ 9) by (unfold b_nano; apply N.mul_le_mono_r; lia).
  assert (N2 : b_nano (c_max_dur g) * 10000 < W128).
  { apply N.le_lt_trans with (2 ^ 32 * 10 ^ 9 * 10000); [apply N.mul_le_mono_r; lia|]. vm_compute. reflexivity. }
  rewrite (cmul_intro W128 _ _ N2). cbn [mbind option_bind].
  assert (P : 0 < b_nano (c_max_dur g) * 10000).
  { unfold b_nano. apply N.mul_pos_pos; [apply N.mul_pos_pos; [exact D0|vm_compute; reflexivity]|lia]. }
  assert (Eb : amount * ((c_max_mult g - 10000) * b_nano dur) / (b_nano (c_max_dur g) * 10000) = boosted g amount dur - amount).
  { unfold boosted, b_nano. rewrite N.add_comm, N.add_sub.
    replace (amount * ((c_max_mult g - 10000) * (dur * 10 ^ 9))) with (amount * ((c_max_mult g - 10000) * dur) * 10 ^ 9) by lia.
    replace (c_max_dur g * 10 ^ 9 * 10000) with (c_max_dur g * 10000 * 10 ^ 9) by lia.
    apply N.div_mul_cancel_r; lia. }
  assert (amount <= boosted g amount dur) by (unfold boosted; apply N.le_add_r).
  rewrite ratio_intro; [|lia|exact N1|exact P|lia]. cbn [mbind option_bind]. rewrite Eb, cadd_intro by lia. eauto.
Qed.
Lemma relock_ok now g k amount dur :
  c_max_dur g < W32 -> c_max_mult g < W32 -> 10000 < c_max_mult g -> 0 < c_max_dur g -> dur <= c_max_dur g ->
  now + dur * 10 ^ 9 < W64 -> (now < k_unlock k -> k_unlock k <= now + dur * 10 ^ 9) -> k_locked k + amount < W128 ->
  snd (fst (fst (locked_more now g (hold_of k) amount dur))) < W128 ->
  exists k', relock now g k amount dur = Some k' /\ k_ratios k' = k_ratios k /\ k_rps k' = k_rps k.
Proof.
  intros D M M0 D0 L T U A X. unfold relock. change (b_nano dur) with (dur * 10 ^ 9). rewrite (cadd_intro _ _ _ T). cbn [mbind option_bind].
  unfold locked_more, hold_of in X. cbn [fst snd] in X.
  assert (E0 : (0 <? k_unlock k) && (now <? k_unlock k) = (now <? k_unlock k)).
  { destruct (N.ltb_spec now (k_unlock k)); [|apply andb_false_r]. rewrite (proj2 (N.ltb_lt 0 (k_unlock k))) by lia. reflexivity. }
  rewrite E0. destruct (N.ltb_spec now (k_unlock k)) as [Hl|Hl].
  - rewrite ensure_intro by (apply N.leb_le; auto). cbn [mbind option_bind].
    rewrite (compute_ok g (k_locked k) dur) by (assumption || lia). cbn [mbind option_bind].
    rewrite (compute_ok g amount dur) by (assumption || lia). cbn [mbind option_bind].
    rewrite (cadd_intro _ _ _ X). cbn [mbind option_bind]. rewrite (cadd_intro _ _ _ A). cbn [mbind option_bind]. eexists. split; [reflexivity|]. auto.
  - rewrite (cadd_intro _ _ _ A). cbn [mbind option_bind]. rewrite compute_ok by assumption. cbn [mbind option_bind].
    eexists. split; [reflexivity|]. auto.
Qed.

(** the power of the locked part after locking [amount] more *)
Definition new_x (now : N) (g : BConfig) (k : BStake) (amount dur : N) : N :=
  if now <? k_unlock k then N.max (k_x k) (boosted g (k_locked k) dur) + boosted g amount dur else boosted g (k_locked k + amount) dur.
(** Locking more never loses power if nothing was locked or the lock still runs. *)
Theorem C86_lock_power now g k amount dur :
  k_locked k = 0 /\ k_x k = 0 \/ now < k_unlock k -> k_x k + amount <= new_x now g k amount dur.
Proof.
  unfold new_x, boosted. intros [[E1 E2]|H].
  - rewrite E1, E2. destruct (now <? k_unlock k); [|rewrite N.add_0_l].
    + remember (amount * ((c_max_mult g - 10000) * dur) / (c_max_dur g * 10000)) as y. lia.
    + apply N.le_add_r.
  - rewrite (proj2 (N.ltb_lt _ _) H). remember (amount * ((c_max_mult g - 10000) * dur) / (c_max_dur g * 10000)) as y.
    remember (k_locked k + k_locked k * ((c_max_mult g - 10000) * dur) / (c_max_dur g * 10000)) as z. lia.
Qed.
(** the conditions on a lock: the seed allows locks of this length, a running lock is not shortened *)
Record lock_ok (w : BWorld) (now : N) (sd : BSeed) (k : BStake) (dur : N) : Prop := mk_lock_ok {
  lo_min : 0 < bs_minlock sd <= dur;
  lo_max : dur <= c_max_dur (b_cfg (bw_c w));
  lo_end : now + dur * 10 ^ 9 < W64;
  lo_longer : now < k_unlock k -> k_unlock k <= now + dur * 10 ^ 9;
}.
Lemma relock_new now g k k' amount dur : hold_of k' = hold_of k -> snd (fst (fst (locked_more now g (hold_of k') amount dur))) = new_x now g k amount dur.
Proof. intros ->. reflexivity. Qed.

(** Tokens can be staked with a lock ... *)
Theorem C86_lock fl w now mft a s F sd amount dur :
  ready fl w now a s F sd -> mono_extra fl -> no_booster (b_cfg (bw_c w)) s -> bs_min sd <= amount ->
  let k := stake_or_new F s in lock_ok w now sd k dur ->
  let x := new_x now (b_cfg (bw_c w)) k amount dur in k_x k <= x ->
  shares_get (bw_hold w) s + amount < W128 ->
  (forall r, gen_ratios fl (b_cfg (bw_c w)) s F = Some r -> bs_power sd + power fl (restaked k (k_free k) x r) < W128) ->
  is_Some (bstep fl w (BvToken now mft s a amount (MLock dur))).
Proof.
  intros Rd Mo Nb Hm k Lo x Hx Hh Room.
  assert (Up : forall r, power fl (reboosted k r) <= power fl (restaked k (k_free k) x r)).
  { intros r. apply power_le; [exact Mo| |reflexivity]. cbn [reboosted restaked k_free k_x]. lia. }
  destruct (claim_ready fl w now a s F sd Rd) as (sd1 & r & F' & sd' & k' & Hg & Hr & Hc & Hk & E1 & E2 & E3 & E4 & E5 & E6 & E7 & E8).
  { intros r Hr. specialize (Room r Hr). specialize (Up r). fold k. lia. }
  fold k in E2, E3, E4. specialize (Room r Hr). specialize (Up r).
  destruct Rd as [Z Hw T Ru HF Hs Ra Bo Su]. destruct Lo as [[L1 L2] L3 L4 L5]. pose proof (amount_hold fl w s sd Z Hw Hs) as Ah.
  destruct (breach_fit fl w Hw) as (_ & C1 & C2). destruct (breach_inv fl w Z Hw) as [I _ _]. pose proof (bi_mult _ _ _ I) as C3.
  change MIN_LOCKING_REWARD_RATIO with 10000 in C3.
  assert (Kl : k_free k + k_locked k <= bs_amount sd).
  { rewrite (si_amount _ _ _ _ (bi_seed _ _ _ I s sd Hs)). pose proof (of_le_all staked s (bw_c w) a F HF) as Lk. unfold of_stake in Lk.
    unfold k, stake_or_new. destruct (b_stakes F !! s); [exact Lk|apply N.le_0_l]. }
  unfold bstep. rewrite tick_ok by exact T. cbn [mbind option_bind].
  rewrite (ensure_intro (amount <? W128)) by (apply N.ltb_lt; lia). cbn [mbind option_bind].
  rewrite (ensure_intro (dur <? W32)) by (apply N.ltb_lt; lia). cbn [mbind option_bind]. unfold on_transfer. rewrite Ru. cbn [mbind option_bind ensure].
  unfold stake_lock_seed. rewrite HF. cbn [mbind option_bind]. rewrite Hg. cbn [mbind option_bind].
  rewrite (ensure_intro (bs_min sd1 <=? amount)) by (apply N.leb_le; lia). cbn [mbind option_bind].
  rewrite (ensure_intro ((0 <? bs_minlock sd1) && (bs_minlock sd1 <=? dur) && (dur <=? c_max_dur (b_cfg (bw_c w)))))
    by (rewrite !andb_true_iff, N.ltb_lt, !N.leb_le; rewrite E8; auto). cbn [mbind option_bind].
  assert (Pk : power fl k' = power fl (reboosted k r)) by (apply power_hold; [exact E2|exact E1]).
  assert (Nx : snd (fst (fst (locked_more now (b_cfg (bw_c w)) (hold_of k') amount dur))) = x) by (apply relock_new, E2).
  pose proof E2 as E2'. unfold hold_of in E2'. injection E2' as H1 H2 H3 H4 H5.
  assert (x < W128). { unfold power in Room. cbn [restaked k_free k_x] in Room. lia. }
  destruct (relock_ok now (b_cfg (bw_c w)) k' amount dur C1 C2 C3 ltac:(lia) L3 L4 ltac:(rewrite H4; exact L5) ltac:(lia) ltac:(lia)) as (k2 & Hk2 & R1 & R2).
  destruct (relock_hold _ _ _ _ _ _ Hk2) as [Hh2 _].
  assert (X2 : k_free k2 = k_free k /\ k_x k2 = x).
  { rewrite <- Nx, <- Hh2. split; [|reflexivity]. unfold locked_more, hold_of in Hh2. injection Hh2 as Q1 _ _ _ _. congruence. }
  destruct X2 as [X1 X2].
  assert (Pn : power fl k2 = power fl (restaked k (k_free k) x r)).
  { apply power_same; cbn [restaked k_free k_x k_ratios]; congruence. }
  destruct (stake_op_ok fl w now a s F sd1 F' sd' k' (fun sd1 k =>
    '(k', inc) ← add_lock fl now (b_cfg (bw_c w)) k amount dur;
    am ← cadd W128 (bs_amount sd1) amount; pw ← cadd W128 (bs_power sd1) inc; Some (k', am, pw, 0))
    k2 (bs_amount sd' + amount) (bs_power sd' + (power fl k2 - power fl k')) 0 Nb Hc Hk) as (c' & Hop & _).
  - unfold add_lock. rewrite seed_power_intro by lia. cbn [mbind option_bind]. rewrite Hk2. cbn [mbind option_bind].
    rewrite seed_power_intro by lia. cbn [mbind option_bind].
    rewrite csub_intro by lia. cbn [mbind option_bind]. rewrite cadd_intro by lia. cbn [mbind option_bind].
    rewrite cadd_intro by lia. reflexivity.
  - rewrite Hop. cbn [mbind option_bind]. eauto.
Qed.
(** ... and free stake can be locked. *)
Theorem C86_lock_free fl w now a s F sd amount dur :
  ready fl w now a s F sd -> mono_extra fl -> no_booster (b_cfg (bw_c w)) s ->
  let k := stake_or_new F s in let n := default (k_free k) amount in n <= k_free k -> lock_ok w now sd k dur ->
  let x := new_x now (b_cfg (bw_c w)) k n dur in k_x k + n <= x ->
  (forall r, gen_ratios fl (b_cfg (bw_c w)) s F = Some r -> bs_power sd + power fl (restaked k (k_free k - n) x r) < W128) ->
  is_Some (bstep fl w (BvCall now a 1 (BLockFree s dur amount))).
Proof.
  intros Rd Mo Nb k n Hn Lo x Hx Room.
  assert (Up : forall r, power fl (reboosted k r) <= power fl (restaked k (k_free k - n) x r)).
  { intros r. apply power_le; [exact Mo| |reflexivity]. cbn [reboosted restaked k_free k_x]. lia. }
  destruct (claim_ready fl w now a s F sd Rd) as (sd1 & r & F' & sd' & k' & Hg & Hr & Hc & Hk & E1 & E2 & E3 & E4 & E5 & E6 & E7 & E8).
  { intros r Hr. specialize (Room r Hr). specialize (Up r). fold k. lia. }
  fold k in E2, E3, E4. specialize (Room r Hr). specialize (Up r).
  destruct Rd as [Z Hw T Ru HF Hs Ra Bo Su]. destruct Lo as [[L1 L2] L3 L4 L5]. pose proof (amount_hold fl w s sd Z Hw Hs) as Ah. specialize (Su s).
  destruct (breach_fit fl w Hw) as (_ & C1 & C2). destruct (breach_inv fl w Z Hw) as [I _ _]. pose proof (bi_mult _ _ _ I) as C3.
  change MIN_LOCKING_REWARD_RATIO with 10000 in C3.
  assert (Kl : k_free k + k_locked k <= bs_amount sd).
  { rewrite (si_amount _ _ _ _ (bi_seed _ _ _ I s sd Hs)). pose proof (of_le_all staked s (bw_c w) a F HF) as Lk. unfold of_stake in Lk.
    unfold k, stake_or_new. destruct (b_stakes F !! s); [exact Lk|apply N.le_0_l]. }
  assert (Na : default 0 amount < W128) by (unfold n in Hn; destruct amount; cbn [default from_option id] in *; lia).
  unfold bstep. rewrite tick_ok by exact T. cbn [mbind option_bind]. unfold bcall_exec. cbn [decoded].
  rewrite (ensure_intro ((dur <? W32) && (default 0 amount <? W128))) by (rewrite andb_true_iff, !N.ltb_lt; split; [lia|exact Na]). cbn [mbind option_bind].
  unfold lock_free_seed. cbn [N.eqb Pos.eqb ensure mbind option_bind]. rewrite Ru. cbn [mbind option_bind ensure].
  rewrite HF. cbn [mbind option_bind]. rewrite Hg. cbn [mbind option_bind].
  rewrite (ensure_intro ((0 <? bs_minlock sd1) && (bs_minlock sd1 <=? dur) && (dur <=? c_max_dur (b_cfg (bw_c w)))))
    by (rewrite !andb_true_iff, N.ltb_lt, !N.leb_le; rewrite E8; auto). cbn [mbind option_bind].
  assert (Pk : power fl k' = power fl (reboosted k r)) by (apply power_hold; [exact E2|exact E1]).
  pose proof E2 as E2'. unfold hold_of in E2'. injection E2' as H1 H2 H3 H4 H5.
  assert (En : default (k_free k') amount = n) by (unfold n; now rewrite H1).
  set (kf := with_free k' (k_free k' - n)).
  assert (Nx : snd (fst (fst (locked_more now (b_cfg (bw_c w)) (hold_of kf) n dur))) = x).
  { unfold locked_more, hold_of, x, new_x, kf. cbn [fst snd with_free k_free k_locked k_x k_unlock k_dur]. now rewrite H2, H3, H4. }
  assert (x < W128). { unfold power in Room. cbn [restaked k_free k_x] in Room. lia. }
  assert (Kf1 : k_locked kf = k_locked k) by exact H2. assert (Kf2 : k_unlock kf = k_unlock k) by exact H4.
  destruct (relock_ok now (b_cfg (bw_c w)) kf n dur C1 C2 C3 ltac:(lia) L3 L4 ltac:(rewrite Kf2; exact L5) ltac:(lia) ltac:(lia)) as (k2 & Hk2 & R1 & R2).
  destruct (relock_hold _ _ _ _ _ _ Hk2) as [Hh2 _].
  assert (X2 : k_free k2 = k_free k - n /\ k_x k2 = x).
  { rewrite <- Nx, <- Hh2. split; [|reflexivity]. unfold locked_more, hold_of in Hh2. injection Hh2 as Q1 _ _ _ _. rewrite Q1. unfold kf. cbn [with_free k_free]. now rewrite H1. }
  destruct X2 as [X1 X2].
  assert (Pn : power fl k2 = power fl (restaked k (k_free k - n) x r)).
  { apply power_same; cbn [restaked k_free k_x k_ratios]; [exact X1|exact X2|]. rewrite R1. exact E1. }
  destruct (stake_op_ok fl w now a s F sd1 F' sd' k' (fun sd1 k =>
    '(k', inc) ← free_to_lock fl now (b_cfg (bw_c w)) k (default (k_free k) amount) dur;
    pw ← cadd W128 (bs_power sd1) inc; Some (k', bs_amount sd1, pw, 0))
    k2 (bs_amount sd') (bs_power sd' + (power fl k2 - power fl k')) 0 Nb Hc Hk) as (c' & Hop & _).
  - unfold free_to_lock. rewrite En. rewrite (csub_intro (k_free k') n) by lia. cbn [mbind option_bind].
    rewrite seed_power_intro by lia. cbn [mbind option_bind].
    rewrite (ensure_intro (dur <=? c_max_dur (b_cfg (bw_c w)))) by (apply N.leb_le; exact L3). cbn [mbind option_bind].
    fold kf. rewrite Hk2. cbn [mbind option_bind]. rewrite seed_power_intro by lia. cbn [mbind option_bind].
    rewrite csub_intro by lia. cbn [mbind option_bind]. rewrite cadd_intro by lia. reflexivity.
  - rewrite Hop. cbn [mbind option_bind]. rewrite csub_intro by apply N.le_0_l. cbn [mbind option_bind]. eauto.
Qed.

(** ** Unlocking *)
Lemma unlock_math locked x amount :
  0 < amount -> amount <= locked -> locked <= x -> x * (locked - amount) / locked + amount <= x.
Proof.
  intros A L X.
  assert (x * (locked - amount) / locked <= x - amount); [|lia].
  apply N.lt_succ_r. apply N.div_lt_upper_bound; [lia|].
  assert (amount * locked <= x * amount) by (rewrite (N.mul_comm x); apply N.mul_le_mono_l; exact X).
  rewrite N.mul_sub_distr_l. rewrite N.mul_succ_r, N.mul_sub_distr_l. rewrite (N.mul_comm locked x), (N.mul_comm locked amount). lia.
Qed.
(** A running lock can be given up, in whole or in part, against a penalty of at most the seed's slash rate. *)
Theorem C86_unlock fl w now a s F sd amount :
  ready fl w now a s F sd -> mono_extra fl -> no_booster (b_cfg (bw_c w)) s -> bs_slash sd <= 10000 ->
  let k := stake_or_new F s in now < k_unlock k -> 0 < amount <= k_locked k ->
  (forall r, gen_ratios fl (b_cfg (bw_c w)) s F = Some r -> bs_power sd + power fl (reboosted k r) < W128) ->
  is_Some (bstep fl w (BvCall now a 1 (BForceUnlock s amount))).
Proof.
  intros Rd Mo Nb Hsl k Hu [A1 A2] Room.
  destruct (claim_ready fl w now a s F sd Rd Room) as (sd1 & r & F' & sd' & k' & Hg & Hr & Hc & Hk & E1 & E2 & E3 & E4 & E5 & E6 & E7 & E8).
  fold k in E2, E3, E4. specialize (Room r Hr).
  destruct Rd as [Z Hw T Ru HF Hs Ra Bo Su]. pose proof (amount_hold fl w s sd Z Hw Hs) as Ah. specialize (Su s).
  destruct (breach_inv fl w Z Hw) as [I0 _ _]. assert (I : binv fl now (bw_c w)) by (eapply binv_mono; [apply T|exact I0]).
  assert (exists k0, b_stakes F !! s = Some k0 /\ k = k0) as (k0 & Hk0 & Ek0).
  { unfold k, stake_or_new in *. destruct (b_stakes F !! s); [eauto|]. cbn in A2. lia. }
  destruct (bi_stake _ _ _ I0 a F s k0 HF Hk0) as [(O1 & O2 & O3 & O4) _]. rewrite <- Ek0 in *.
  assert (Kl : k_free k + k_locked k <= bs_amount sd).
  { rewrite (si_amount _ _ _ _ (bi_seed _ _ _ I s sd Hs)). pose proof (of_le_all staked s (bw_c w) a F HF) as Lk. unfold of_stake in Lk.
    rewrite Hk0 in Lk. exact Lk. }
  assert (D0 : 0 < b_nano (k_dur k)) by lia.
  unfold bstep. rewrite tick_ok by exact T. cbn [mbind option_bind]. unfold bcall_exec. cbn [decoded].
  rewrite (ensure_intro (amount <? W128)) by (apply N.ltb_lt; lia). cbn [mbind option_bind].
  unfold force_unlock. cbn [N.eqb Pos.eqb ensure mbind option_bind]. rewrite Ru. cbn [mbind option_bind ensure].
  rewrite HF. cbn [mbind option_bind]. rewrite Hg. cbn [mbind option_bind].
  assert (Pk : power fl k' = power fl (reboosted k r)) by (apply power_hold; [exact E2|exact E1]).
  pose proof E2 as E2'. unfold hold_of in E2'. injection E2' as H1 H2 H3 H4 H5.
  assert (W64 <= W128) as W6 by (vm_compute; discriminate).
  assert (Xl : k_free k' + k_x k' < W128). { unfold power in Room. cbn [reboosted k_free k_x] in Room. lia. }
  assert (exists full, u128_ratio amount (bs_slash sd') BP_DENOM = Some full /\ full <= amount) as (full & R1 & F1).
  { exists (amount * bs_slash sd' / 10000). assert (amount * bs_slash sd' / 10000 <= amount).
    { apply N.div_le_upper_bound; [lia|]. rewrite (N.mul_comm 10000). apply N.mul_le_mono_l. lia. }
    split; [|assumption]. assert (10000 < W128) by (vm_compute; reflexivity). apply ratio_intro; [lia|lia|vm_compute; reflexivity|].
    change BP_DENOM with 10000. lia. }
  assert (Dl : k_unlock k' - now <= b_nano (k_dur k')) by (rewrite H4, H5; lia). rewrite <- H5 in D0.
  assert (exists slash, u128_ratio full (k_unlock k' - now) (b_nano (k_dur k')) = Some slash /\ slash <= full) as (slash & R2 & F2).
  { exists (full * (k_unlock k' - now) / b_nano (k_dur k')). assert (full * (k_unlock k' - now) / b_nano (k_dur k') <= full).
    { apply N.div_le_upper_bound; [lia|]. rewrite (N.mul_comm (b_nano _)). apply N.mul_le_mono_l. exact Dl. }
    split; [|assumption]. apply ratio_intro; lia. }
  assert (exists x2, u128_ratio (k_x k') (k_locked k' - amount) (k_locked k') = Some x2 /\ x2 + amount <= k_x k') as (x2 & R3 & UM).
  { exists (k_x k' * (k_locked k' - amount) / k_locked k').
    pose proof (unlock_math (k_locked k') (k_x k') amount A1 ltac:(lia) ltac:(lia)) as UM. split; [|exact UM]. apply ratio_intro; lia. }
  set (k2 := if amount <? k_locked k' then with_lock (with_free k' (k_free k' + (amount - slash))) (k_locked k' - amount) x2 (k_unlock k') (k_dur k')
             else with_lock (with_free k' (k_free k' + (amount - slash))) (k_locked k' - amount) 0 0 0).
  assert (Ek2 : (if amount <? k_locked k' then
          x ← u128_ratio (k_x k') (k_locked k' - amount) (k_locked k');
          _ ← ensure (x <? k_x k');
          Some (with_lock (with_free k' (k_free k' + (amount - slash))) (k_locked k' - amount) x (k_unlock k') (k_dur k'))
        else Some (with_lock (with_free k' (k_free k' + (amount - slash))) (k_locked k' - amount) 0 0 0)) = Some k2).
  { unfold k2. destruct (amount <? k_locked k'); [|reflexivity]. rewrite R3. cbn [mbind option_bind].
    rewrite ensure_intro by (apply N.ltb_lt; lia). reflexivity. }
  assert (Pn : power fl k2 <= power fl k').
  { apply power_le; [exact Mo| |]; unfold k2; destruct (amount <? k_locked k'); cbn [with_lock with_free k_free k_x k_ratios]; try reflexivity; lia. }
  clearbody k2.
  destruct (stake_op_ok fl w now a s F sd1 F' sd' k' (fun sd1 k =>
    '(k', dec, slash) ← unlock_slashed fl now k amount (bs_slash sd1);
    am ← csub (bs_amount sd1) slash; pw ← csub (bs_power sd1) dec; Some (k', am, pw, slash))
    k2 (bs_amount sd' - slash) (bs_power sd' - (power fl k' - power fl k2)) slash Nb Hc Hk) as (c' & Hop & Hsh).
  - unfold unlock_slashed. rewrite (seed_power_intro fl k') by lia. cbn [mbind option_bind].
    rewrite (ensure_intro (now <? k_unlock k')) by (apply N.ltb_lt; lia). cbn [mbind option_bind].
    rewrite (ensure_intro ((amount <=? k_locked k') && negb (amount =? 0)))
      by (rewrite andb_true_iff, N.leb_le, negb_true_iff, N.eqb_neq; lia). cbn [mbind option_bind].
    rewrite R1. cbn [mbind option_bind]. rewrite R2. cbn [mbind option_bind].
    rewrite (csub_intro (k_locked k') amount) by lia. cbn [mbind option_bind]. rewrite (csub_intro amount slash) by lia. cbn [mbind option_bind].
    rewrite (cadd_intro W128 (k_free k') (amount - slash)) by lia. cbn [mbind option_bind].
    rewrite Ek2. cbn [mbind option_bind]. rewrite (seed_power_intro fl k2) by lia. cbn [mbind option_bind].
    rewrite (csub_intro (power fl k')) by exact Pn. cbn [mbind option_bind].
    rewrite (csub_intro (bs_amount sd')) by lia. cbn [mbind option_bind]. rewrite (csub_intro (bs_power sd')) by lia. reflexivity.
  - rewrite Hop. cbn [mbind option_bind]. unfold add_to_collection. rewrite Hsh. rewrite cadd_intro by lia. cbn [mbind option_bind].
    rewrite csub_intro by apply N.le_0_l. cbn [mbind option_bind]. eauto.
Qed.
Print Assumptions C86_claim.
Print Assumptions C86_free.
Print Assumptions C86_lock_power.
Print Assumptions C86_lock.
Print Assumptions C86_lock_free.
Print Assumptions C86_unlock.
