(** * C87: what the boost farming contract displays *)
From Verif Require Import Base BaseLemmas Boost SpecBoost BoostInv BoostCalls PropBoost BoostViews PropBoostFarm.

Definition for_token (t : AccountId) (l : list (N * (BFarm * N))) : N := lsum ((fun e => tok_amount t (snd e)) <$> l).
Lemma credit_fits l : forall rw rw' t, credit l rw = Some rw' -> 0 < for_token t l -> shares_get rw t + for_token t l < W128.
Proof.
  unfold for_token. induction l as [|[i [f n]] l IH]; intros rw rw' t H P; cbn [credit fmap list_fmap lsum] in *; [lia|].
  apply bind_Some in H as (rw1 & H1 & H). unfold tok_amount at 1 in P. unfold tok_amount at 1. cbn [fst snd] in *.
  destruct (N.ltb_spec 0 n) as [Hn|Hn].
  - apply add_to_collection_Some in H1 as [-> L]. specialize (IH _ _ t H). pose proof (credit_Some _ _ _ t H) as E.
    destruct (String.eqb_spec (bf_token f) t) as [<-|Hne].
    + rewrite shares_get_insert in IH. destruct (N.eq_dec (lsum ((fun e => tok_amount (bf_token f) (snd e)) <$> l)) 0) as [Z|Z]; lia.
    + rewrite shares_get_insert_ne in IH by done. lia.
  - injection H1 as ->. assert (n = 0) as -> by lia. specialize (IH _ _ t H).
    assert ((if String.eqb (bf_token f) t then 0 else 0) = 0) as E by now destruct (String.eqb _ _). lia.
Qed.
Lemma credit_ok l : forall rw, (forall t, shares_get rw t < W128) -> (forall t, shares_get rw t + for_token t l < W128) -> exists rw', credit l rw = Some rw'.
Proof.
  unfold for_token. induction l as [|[i [f n]] l IH]; intros rw P Q; cbn [credit fmap list_fmap lsum] in *; [eauto|].
  pose proof (Q (bf_token f)) as Qf. unfold tok_amount at 1 in Qf. cbn [fst snd] in Qf. rewrite String.eqb_refl in Qf.
  destruct (N.ltb_spec 0 n) as [Hn|Hn].
  - unfold add_to_collection. rewrite (cadd_intro W128 (shares_get rw (bf_token f))) by lia. cbn [mbind option_bind].
    apply IH; intros t; (destruct (decide (bf_token f = t)) as [<-|Hne]; [rewrite shares_get_insert|rewrite shares_get_insert_ne by done]); try lia.
    + apply P.
    + specialize (Q t). lia.
  - cbn [mbind option_bind]. apply IH; [exact P|]. intros t. specialize (Q t). lia.
Qed.
Lemma for_token_map t m : for_token t (map_to_list m) = msum (fun _ y => tok_amount t y) m.
Proof.
  unfold for_token, msum, map_fold. cbn. induction (map_to_list m) as [|[i y] l IH]; [reflexivity|]. cbn. f_equal. exact IH.
Qed.
Lemma map_all_intro {A B} (g : N -> A -> option B) m : (forall i x, m !! i = Some x -> is_Some (g i x)) -> exists m', map_all g m = Some m'.
Proof. intros H. unfold map_all. rewrite decide_True by exact H. eauto. Qed.

(** The rewards displayed as unclaimed are displayed whenever a claim at that time succeeds, and the claim pays exactly them. *)
Theorem C87_unclaimed fl now c a s c' :
  claim_reward_by_seed fl now c a s = Some c' ->
  exists m F F', v_unclaimed fl now c a s = Some m /\ b_farmers c !! a = Some F /\ b_farmers c' !! a = Some F' /\
    forall t, shares_get (b_rewards F') t = shares_get (b_rewards F) t + shares_get m t.
Proof.
  intros H. unfold claim_reward_by_seed in H. apply bind_Some in H as (u1 & _ & H).
  apply bind_Some in H as (F & HF & H). apply bind_Some in H as (sd & Hg & H).
  apply bind_Some in H as ([F' sd'] & Hcl & H). injection H as <-.
  unfold do_claim in Hcl. apply bind_Some in Hcl as (k & Hk & Hcl). apply bind_Some in Hcl as (p & Hp & Hcl).
  apply bind_Some in Hcl as (res & Hres & Hcl). apply bind_Some in Hcl as (rw & Hrw & Hcl).
  apply bind_Some in Hcl as (r & _ & Hcl). apply bind_Some in Hcl as (p' & _ & Hcl). apply bind_Some in Hcl as (t1 & _ & Hcl).
  apply bind_Some in Hcl as (t2 & _ & Hcl). injection Hcl as <- <-.
  assert (exists res', map_all (calc_farm p (k_rps k)) (bs_farms sd) = Some res') as [res' Hres'].
  { apply map_all_intro. intros i f Hf. pose proof (map_all_Some _ _ _ Hres i) as E. rewrite Hf in E. destruct E as ([f1 n] & E & _).
    unfold claim_farm in E. unfold calc_farm.
    apply bind_Some in E as (d & -> & E). apply bind_Some in E as (q & Hq & E). apply bind_Some in E as (am & Ha & _).
    cbn [mbind option_bind]. rewrite Hq. cbn [mbind option_bind]. rewrite Ha. cbn [mbind option_bind]. eauto. }
  assert (Sum : forall t, msum (fun _ y => tok_amount t y) res' = msum (fun _ y => tok_amount t y) res).
  { intros t. apply msum_rel. intros i. pose proof (map_all_Some _ _ _ Hres i) as E. pose proof (map_all_Some _ _ _ Hres' i) as E'.
    destruct (bs_farms sd !! i) as [f|] eqn:Hf.
    - destruct E as ([f1 n] & E & ->). destruct E' as ([f2 n2] & E' & ->). unfold claim_farm in E. unfold calc_farm in E'.
      apply bind_Some in E as (d & Hd & E). rewrite Hd in E'. cbn [mbind option_bind] in E'. apply bind_Some in E as (q & Hq & E). rewrite Hq in E'. cbn [mbind option_bind] in E'.
      apply bind_Some in E as (am & Ha & E). rewrite Ha in E'. cbn [mbind option_bind] in E'. apply bind_Some in E as (cl & _ & E). injection E as <- <-. injection E' as <- <-.
      unfold tok_amount. cbn [fst snd bf_token]. reflexivity.
    - now rewrite E, E'. }
  destruct (credit_ok (map_to_list res') ∅) as [m Hm].
  - intros t. unfold shares_get. rewrite lookup_empty. vm_compute. reflexivity.
  - intros t. rewrite for_token_map, Sum, <- for_token_map. unfold shares_get. rewrite lookup_empty. cbn [default from_option].
    destruct (N.eq_dec (for_token t (map_to_list res)) 0) as [->|P]; [vm_compute; reflexivity|].
    pose proof (credit_fits _ _ _ t Hrw). lia.
  - exists m, F, (with_stake (with_rewards F rw) s (with_ratios (with_rps k (new_rps (bs_farms sd))) r)).
    split. { unfold v_unclaimed. rewrite HF. cbn [mbind option_bind]. rewrite Hg. cbn [mbind option_bind]. rewrite Hk. cbn [mbind option_bind].
      rewrite Hp. cbn [mbind option_bind]. rewrite Hres'. exact Hm. }
    split; [exact HF|]. split; [apply lookup_insert|]. intros t. cbn [b_rewards with_stake with_rewards].
    rewrite (credit_map _ _ _ t Hrw), (credit_map _ _ _ t Hm), Sum. unfold shares_get at 3. rewrite lookup_empty. cbn [default from_option]. lia.
Qed.

(** A claim leaves every farm as displayed at that time, but for the claimed amount, which grows by what the farm owes. *)
Definition claimed_more (f : BFarm) (n : N) : BFarm :=
  mkBFarm (bf_token f) (bf_start f) (bf_daily f) (bf_total f) (bf_at f) (bf_dist f) (bf_claimed f + n) (bf_benef f) (bf_rps f).
Theorem C87_farm fl now c a s c' i f F :
  zero_extra fl -> claim_reward_by_seed fl now c a s = Some c' -> v_farm now c s i = Some (Some f) -> b_farmers c !! a = Some F ->
  v_farm now c' s i = Some (Some (claimed_more f (due fl i f (stake_or_new F s) / B_DIV))).
Proof.
  intros Z H V HF. unfold claim_reward_by_seed in H. apply bind_Some in H as (u1 & _ & H).
  apply bind_Some in H as (F0 & HF0 & H). rewrite HF in HF0. injection HF0 as <-. apply bind_Some in H as (sd & Hg & H).
  apply bind_Some in H as ([F' sd'] & Hcl & H). injection H as <-.
  unfold v_farm in V. rewrite Hg in V. injection V as Hf.
  apply do_claim_Some in Hcl as (k & k' & res & rw & t & Hk & Hres & _ & _ & _ & _ & ->).
  unfold get_seed in Hg. apply bind_Some in Hg as (sd0 & Hs0 & Hup).
  unfold v_farm, get_seed. cbn [set_farmer set_farmers set_seed set_seeds b_seeds]. rewrite lookup_insert. cbn [mbind option_bind].
  unfold seed_update in Hup |- *. apply bind_Some in Hup as (m & Hm & E). injection E as <-.
  cbn [with_total with_farms bs_farms bs_power bs_amount] in *.
  assert (Upd : forall j g, (fst <$> res) !! j = Some g -> farm_update now t g = Some g).
  { intros j g Hj. rewrite lookup_fmap in Hj. destruct (res !! j) as [[y n]|] eqn:Hr; [|discriminate]. injection Hj as <-.
    destruct (map_all_inv _ _ _ _ _ Hres Hr) as (f1 & Hf1 & Hc). apply claim_farm_Some in Hc as (-> & _ & _).
    destruct (map_all_inv _ _ _ _ _ Hm Hf1) as (f0 & Hf0 & Hu0).
    eapply (farm_update_idem now _ _ f0 f1); [exact Hu0|reflexivity..]. }
  assert (All : map_all (fun _ g => farm_update now t g) (fst <$> res) = Some (fst <$> res)).
  { destruct (map_all_intro (fun _ g => farm_update now t g) (fst <$> res)) as [m' Hm']; [intros j g Hj; rewrite (Upd j g Hj); eauto|].
    rewrite Hm'. f_equal. apply map_eq. intros j. pose proof (map_all_Some _ _ _ Hm' j) as E.
    destruct ((fst <$> res) !! j) as [g|] eqn:Hj; [|exact E]. destruct E as (y & E & ->). rewrite (Upd j g Hj) in E. now injection E as <-. }
  rewrite All. cbn [mbind option_bind with_farms bs_farms]. do 2 f_equal.
  pose proof (map_all_Some _ _ _ Hres i) as E. rewrite Hf in E. destruct E as ([y n] & E & Ei). rewrite lookup_fmap, Ei. cbn [fmap option_fmap option_map fst].
  apply claim_farm_Some in E as (-> & _ & ->). unfold claimed_more, due, stake_or_new. destruct Hk as [->|[-> [r ->]]]; [reflexivity|].
  change (mkBStake 0 0 0 0 0 ∅ ∅) with (empty_stake ∅). rewrite !power_zero by done. now rewrite !N.mul_0_r.
Qed.
(** The storage displayed is what leaving returns. *)
Theorem C87_storage fl now c a c' out :
  bcall_exec fl now c a 1 BStorageUnregister = Some (c', out) -> b_farmers c !! a <> None ->
  exists n, v_storage_balance c a = Some (n, 0) /\ sent out = n /\ v_storage_balance c' a = None.
Proof.
  intros H HF. unfold bcall_exec in H. apply bind_Some in H as (u & _ & H). unfold b_storage_unregister in H. apply bind_Some in H as (u1 & _ & H).
  unfold v_storage_balance. destruct (b_farmers c !! a) as [F|]; [|done]. apply bind_Some in H as (u2 & _ & H). apply bind_Some in H as (n & _ & H). injection H as <- <-.
  exists STORAGE_BALANCE_MIN_BOUND. split; [reflexivity|]. split; [unfold sent; cbn [fmap list_fmap snd lsum]; lia|].
  cbn [set_farmer_count set_farmers b_farmers]. now rewrite lookup_delete.
Qed.
Print Assumptions C87_unclaimed.
Print Assumptions C87_farm.
Print Assumptions C87_storage.

(** In the case of C79 ann and bob see what they would get after two days, and bob gets it. *)
Example C87_case :
  (w ← ex_upto 12; Some ((fun m => (shares_get m "ref", shares_get m "lp")) <$> v_unclaimed ex_fl (ex_t0 + 2 * ex_day) (bw_c w) "bob" "lp",
     f ← v_farm (ex_t0 + 2 * ex_day) (bw_c w) "lp" 1; (fun f => (bf_dist f, bf_total f)) <$> f,
     c' ← claim_reward_by_seed ex_fl (ex_t0 + 2 * ex_day) (bw_c w) "bob" "lp"; F ← b_farmers c' !! "bob"; Some (shares_get (b_rewards F) "ref", shares_get (b_rewards F) "lp")))
  = Some (Some (954545, 340), Some (700, 700), Some (954545, 340)).
Proof. vm_compute. reflexivity. Qed.
