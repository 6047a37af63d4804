(** * The sizes of the boost farming contract's numbers over all histories, and when a claim is computed *)
From Verif Require Import Base BaseLemmas Boost SpecBoost BoostInv BoostCalls.

(** ** The invariant *)
Definition farm_fit (f : BFarm) : Prop := bf_rps f <= B_DIV * bf_dist f /\ bf_total f < W128 /\ bf_daily f < W128.
Definition seed_fit (sd : BSeed) : Prop := bs_power sd < W128 /\ forall i f, bs_farms sd !! i = Some f -> farm_fit f.
Definition fits (c : BState) : Prop :=
  (forall s sd, b_seeds c !! s = Some sd -> seed_fit sd) /\ c_max_dur (b_cfg c) < W32 /\ c_max_mult (b_cfg c) < W32.

Lemma farm_update_fit now p f f' : farm_fit f -> farm_update now p f = Some f' -> farm_fit f'.
Proof.
  intros [R T]. unfold farm_update. destruct (now <=? bf_at f); [intros [= <-]; split; auto|].
  destruct (farm_status now f); intros H.
  - injection H as <-. split; auto.
  - injection H as <-. split; auto.
  - apply bind_Some in H as (l & Hl & H). apply bind_Some in H as (d & Hd & H). apply bind_Some in H as (e & He & H).
    apply cadd_Some in He as [-> _]. remember (N.min l d) as rw. destruct (0 <? p) eqn:Bp; bool_inv.
    + apply bind_Some in H as (inc & Hi & H). apply bind_Some in H as (r & Hr & H). injection H as <-.
      apply cmul_Some in Hi as [-> _]. apply cadd_Some in Hr as [-> _]. split; [|exact T]. cbn [bf_rps bf_dist].
      assert (rw * B_DIV / p <= rw * B_DIV) by (apply N.div_le_upper_bound; [lia|]; rewrite <- (N.mul_1_l (rw * B_DIV)) at 1; apply N.mul_le_mono_r; lia).
      rewrite N.mul_add_distr_l. lia.
    + apply bind_Some in H as (b & Hb & H). injection H as <-. split; [|exact T]. cbn [bf_rps bf_dist]. rewrite N.mul_add_distr_l. lia.
  - injection H as <-. split; auto.
Qed.
Lemma seed_update_fit now sd sd' : seed_fit sd -> seed_update now sd = Some sd' -> seed_fit sd'.
Proof.
  intros [P R] H. unfold seed_update in H. apply bind_Some in H as (m & Hm & H). injection H as <-. split; [exact P|].
  intros i f' Hf. cbn [bs_farms with_farms] in Hf. destruct (map_all_inv _ _ _ _ _ Hm Hf) as (f & Hf0 & Hu).
  eapply farm_update_fit; eauto.
Qed.
Lemma get_seed_fit now c s sd : fits c -> get_seed now c s = Some sd -> seed_fit sd.
Proof. intros [I _] H. unfold get_seed in H. apply bind_Some in H as (sd0 & H0 & H). eapply seed_update_fit; eauto. Qed.
Lemma do_claim_fit fl g s F sd F' sd' : seed_fit sd -> do_claim fl g s F sd = Some (F', sd') -> seed_fit sd'.
Proof.
  intros [P R] H. unfold do_claim in H. apply bind_Some in H as (k & _ & H). apply bind_Some in H as (p & _ & H).
  apply bind_Some in H as (res & Hres & H). apply bind_Some in H as (rw & _ & H). apply bind_Some in H as (ra & _ & H).
  cbv zeta in H. apply bind_Some in H as (p' & _ & H). apply bind_Some in H as (t & Ht & H). apply bind_Some in H as (t' & Ht' & H).
  injection H as <- <-. apply cadd_Some in Ht as [-> Ht]. apply csub_Some in Ht' as [-> _].
  split; [cbn [bs_power with_total]; lia|]. intros i f Hf. cbn [bs_farms with_total with_farms] in Hf. rewrite lookup_fmap in Hf.
  destruct (res !! i) as [[y n]|] eqn:Hr; [|discriminate]. injection Hf as <-.
  destruct (map_all_inv _ _ _ _ _ Hres Hr) as (f & Hf0 & Hc). apply claim_farm_Some in Hc as (-> & _ & _).
  destruct (R i f Hf0). split; auto.
Qed.
Lemma set_seed_fit c s sd c' :
  fits c -> seed_fit sd -> b_seeds c' = <[s := sd]> (b_seeds c) -> b_cfg c' = b_cfg c -> fits c'.
Proof.
  intros [I G] S E Eg. split; [|now rewrite Eg]. intros s1 sd1. rewrite E. intros H1.
  apply lookup_insert_Some in H1 as [[_ <-]|[_ H1]]; [exact S|eauto].
Qed.
Lemma same_seeds_fit c c' : fits c -> b_seeds c' = b_seeds c -> b_cfg c' = b_cfg c -> fits c'.
Proof. intros [I G] E Eg. split; [now rewrite E|now rewrite Eg]. Qed.
Lemma update_seeds_fit fl now l : forall c F c' F',
  fits c -> update_seeds fl now l c F = Some (c', F') -> fits c' /\ b_cfg c' = b_cfg c.
Proof.
  induction l as [|s l IH]; intros c F c' F' I H; cbn [update_seeds] in H; [injection H as <- <-; auto|].
  destruct (b_stakes F !! s); [|eauto]. apply bind_Some in H as (sd & Hg & H). apply bind_Some in H as ([F1 sd1] & Hc & H).
  eapply IH in H as [H1 H2]; [split; [exact H1|exact H2]|].
  eapply set_seed_fit; [exact I| |reflexivity|reflexivity]. eapply do_claim_fit; [|exact Hc]. eapply get_seed_fit; eauto.
Qed.
Lemma update_impacted_fit fl now c F s c' F' : fits c -> update_impacted fl now c F s = Some (c', F') -> fits c' /\ b_cfg c' = b_cfg c.
Proof.
  intros I H. unfold update_impacted in H. destruct (c_boosters (b_cfg c) !! s); [eapply update_seeds_fit; eauto|]. injection H as <- <-. auto.
Qed.
Lemma stake_op_fit fl now c a s F sd op c' sl :
  fits c -> get_seed now c s = Some sd ->
  (forall sd1 k k' am pw z, op sd1 k = Some (k', am, pw, z) -> bs_power sd1 < W128 -> pw < W128) ->
  stake_op fl now c a s F sd op = Some (c', sl) -> fits c'.
Proof.
  intros I Hg Ho H. unfold stake_op in H. apply bind_Some in H as ([F1 sd1] & Hcl & H). apply bind_Some in H as (k & Hk & H).
  apply bind_Some in H as ([[[k' am] pw] sl'] & Hop & H). apply bind_Some in H as ([c2 F2] & Him & H). injection H as <- <-.
  destruct (update_impacted_fit _ _ _ _ _ _ _ I Him) as [I2 E2].
  destruct (do_claim_fit _ _ _ _ _ _ _ (get_seed_fit _ _ _ _ I Hg) Hcl) as [P1 R1].
  eapply (set_seed_fit c2 s (with_total sd1 am pw)); [exact I2| |reflexivity|reflexivity]. split; [cbn [bs_power with_total]; eauto|exact R1].
Qed.
Lemma get_set_fit now c s sd sd' c' :
  fits c -> get_seed now c s = Some sd -> b_seeds c' = <[s := sd']> (b_seeds c) -> b_cfg c' = b_cfg c ->
  bs_power sd' = bs_power sd -> (forall i f, bs_farms sd' !! i = Some f -> bs_farms sd !! i = Some f \/ farm_fit f) -> fits c'.
Proof.
  intros I Hg E Eg Ep Ef. destruct (get_seed_fit _ _ _ _ I Hg) as [P R].
  eapply set_seed_fit; [exact I| |exact E|exact Eg]. split; [lia|]. intros i f Hf. destruct (Ef i f Hf) as [H|H]; [eauto|exact H].
Qed.
Lemma call_fit fl now c a att x c' out : fits c -> bcall_exec fl now c a att x = Some (c', out) -> fits c'.
Proof.
  intros I H. unfold bcall_exec in H. apply bind_Some in H as (u & Hd & H). apply ensure_Some in Hd. destruct x.
  20: apply bind_Some in H as (u1 & Hu1 & H).
  1-20: apply bind_Some in H as (c1 & Hc & H); injection H as <- <-.
  - unfold create_seed in Hc. apply bind_Some in Hc as (v & _ & Hc). destruct (b_seeds c !! s) eqn:Es; [discriminate|]. injection Hc as <-.
    eapply set_seed_fit; [exact I| |reflexivity|reflexivity]. split; [vm_compute; reflexivity|]. intros i f Hf. cbn [bs_farms] in Hf.
    rewrite lookup_empty in Hf. discriminate.
  - unfold create_farm in Hc. apply bind_Some in Hc as (v & _ & Hc). apply bind_Some in Hc as (sd & Hg & Hc). inv; subst.
    eapply get_set_fit; [exact I|exact Hg|reflexivity|reflexivity|reflexivity|]. cbn [bs_farms with_next with_farms]. intros i f Hf.
    apply lookup_insert_Some in Hf as [[_ <-]|[_ Hf]]; [|auto]. right. cbn [decoded] in Hd. bool_inv.
    split; [apply N.le_0_l|]. split; [vm_compute; reflexivity|assumption].
  - unfold cancel_farm in Hc. apply bind_Some in Hc as (v & _ & Hc). apply bind_Some in Hc as (sd & Hg & Hc). inv; subst.
    eapply get_set_fit; [exact I|exact Hg|reflexivity|reflexivity|reflexivity|]. cbn [bs_farms with_farms]. intros j f Hf.
    apply lookup_delete_Some in Hf as [_ Hf]. auto.
  - unfold remove_farm in Hc. apply bind_Some in Hc as (v & _ & Hc). apply bind_Some in Hc as (v1 & _ & Hc). apply bind_Some in Hc as (sd & Hg & Hc). inv; subst.
    eapply get_set_fit; [exact I|exact Hg|reflexivity|reflexivity|reflexivity|]. cbn [bs_farms with_farms]. intros j f Hf.
    apply lookup_delete_Some in Hf as [_ Hf]. auto.
  - unfold modify_booster in Hc. inv; subst. exact I.
  - unfold modify_daily in Hc. apply bind_Some in Hc as (v & _ & Hc). apply bind_Some in Hc as (sd & Hg & Hc).
    apply bind_Some in Hc as (f & Hf & Hc). injection Hc as <-.
    eapply get_set_fit; [exact I|exact Hg|reflexivity|reflexivity|reflexivity|]. cbn [bs_farms with_farms]. intros j g Hj.
    apply lookup_insert_Some in Hj as [[_ <-]|[_ Hj]]; [|auto]. right.
    cbn [decoded] in Hd. bool_inv. destruct (proj2 (get_seed_fit _ _ _ _ I Hg) i f Hf) as (R & T & _). split; [exact R|]. split; [exact T|assumption].
  - unfold modify_locking_policy in Hc. inv; subst. destruct I as [I _]. cbn [decoded] in Hd. bool_inv. split; [exact I|]. split; assumption.
  - unfold modify_max_farms in Hc. inv; subst. exact I.
  - unfold modify_default_slash in Hc. inv; subst. exact I.
  - unfold modify_min_deposit in Hc. apply bind_Some in Hc as (v & _ & Hc). apply bind_Some in Hc as (sd & Hg & Hc). injection Hc as <-.
    eapply get_set_fit; [exact I|exact Hg|reflexivity|reflexivity|reflexivity|]. auto.
  - unfold modify_min_lock in Hc. apply bind_Some in Hc as (v & _ & Hc). apply bind_Some in Hc as (v1 & _ & Hc). apply bind_Some in Hc as (sd & Hg & Hc). injection Hc as <-.
    eapply get_set_fit; [exact I|exact Hg|reflexivity|reflexivity|reflexivity|]. auto.
  - unfold modify_slash in Hc. apply bind_Some in Hc as (v & _ & Hc). apply bind_Some in Hc as (sd & Hg & Hc). injection Hc as <-.
    eapply get_set_fit; [exact I|exact Hg|reflexivity|reflexivity|reflexivity|]. auto.
  - unfold b_set_owner in Hc. inv; subst. exact I.
  - unfold b_set_state in Hc. inv; subst. exact I.
  - unfold b_set_state in Hc. inv; subst. exact I.
  - unfold extend_operators in Hc. inv; subst. exact I.
  - unfold remove_operators in Hc. inv; subst. exact I.
  - unfold lock_free_seed in Hc.
    apply bind_Some in Hc as (u3 & _ & Hc). apply bind_Some in Hc as (u4 & _ & Hc).
    apply bind_Some in Hc as (F & HF & Hc). apply bind_Some in Hc as (sd & Hg & Hc). apply bind_Some in Hc as (u5 & _ & Hc).
    apply bind_Some in Hc as ([c2 sl] & Hop & Hc). injection Hc as ->. eapply stake_op_fit; [exact I|exact Hg| |exact Hop].
    cbv beta. intros sd1 k k' am pw z Ho _. apply bind_Some in Ho as ([k1 inc] & _ & Ho). apply bind_Some in Ho as (p & Hp & Ho).
    injection Ho as <- <- <- <-. apply cadd_Some in Hp as [-> Hp]. exact Hp.
  - unfold force_unlock in Hc.
    apply bind_Some in Hc as (u3 & _ & Hc). apply bind_Some in Hc as (u4 & _ & Hc).
    apply bind_Some in Hc as (F & HF & Hc). apply bind_Some in Hc as (sd & Hg & Hc).
    apply bind_Some in Hc as ([c2 sl] & Hop & Hc). apply bind_Some in Hc as (m & Hm & Hc). injection Hc as <-.
    apply (same_seeds_fit c2); [|reflexivity|reflexivity]. eapply stake_op_fit; [exact I|exact Hg| |exact Hop].
    cbv beta. intros sd1 k k' am pw z Ho P. apply bind_Some in Ho as ([[k1 dec] sl1] & _ & Ho). apply bind_Some in Ho as (q & _ & Ho).
    apply bind_Some in Ho as (p & Hp & Ho). injection Ho as <- <- <- <-. apply csub_Some in Hp as [-> _]. lia.
  - unfold claim_reward_by_seed in Hc. apply bind_Some in Hc as (u3 & _ & Hc).
    apply bind_Some in Hc as (F & HF & Hc). apply bind_Some in Hc as (sd & Hg & Hc).
    apply bind_Some in Hc as ([F' sd'] & Hcl & Hc). injection Hc as <-.
    eapply (set_seed_fit c s sd'); [exact I| |reflexivity|reflexivity]. eapply do_claim_fit; [|exact Hcl]. eapply get_seed_fit; eauto.
  - unfold b_storage_deposit in H. apply bind_Some in H as (v & _ & H).
    destruct (b_farmers c !! default a acc); inv; subst; exact I.
  - discriminate.
  - unfold b_storage_unregister in H. apply bind_Some in H as (v & _ & H).
    destruct (b_farmers c !! a); inv; subst; exact I.
Qed.
Lemma step_fit fl w e w' : fits (bw_c w) -> bstep fl w e = Some w' -> fits (bw_c w').
Proof.
  intros I H. unfold bstep in H. destruct e as [now a att x|now mft asset sender amount msg|asset amount].
  - apply bind_Some in H as (u & Ht & H). apply bind_Some in H as ([c' out] & Hc & H). apply bind_Some in H as (n & _ & H).
    injection H as <-. cbn [bw_c]. eapply call_fit; eauto.
  - apply bind_Some in H as (u & Ht & H). apply bind_Some in H as (u1 & _ & H). apply bind_Some in H as (u2 & _ & H).
    apply bind_Some in H as (c' & Hc & H). injection H as <-. cbn [bw_c].
    unfold on_transfer in Hc. apply bind_Some in Hc as (u3 & _ & Hc). destruct msg as [|dur|s i].
    + unfold stake_free_seed in Hc.
      apply bind_Some in Hc as (F & HF & Hc). apply bind_Some in Hc as (sd & Hg & Hc). apply bind_Some in Hc as (u4 & _ & Hc).
      apply bind_Some in Hc as ([c1 sl] & Hop & Hc). injection Hc as ->. eapply stake_op_fit; [exact I|exact Hg| |exact Hop].
      cbv beta. intros sd1 k k' am pw z Ho _. apply bind_Some in Ho as ([k1 inc] & _ & Ho). apply bind_Some in Ho as (q & _ & Ho).
      apply bind_Some in Ho as (p & Hp & Ho). injection Ho as <- <- <- <-. apply cadd_Some in Hp as [-> Hp]. exact Hp.
    + unfold stake_lock_seed in Hc.
      apply bind_Some in Hc as (F & HF & Hc). apply bind_Some in Hc as (sd & Hg & Hc). apply bind_Some in Hc as (u4 & _ & Hc).
      apply bind_Some in Hc as (u5 & _ & Hc). apply bind_Some in Hc as ([c1 sl] & Hop & Hc). injection Hc as ->.
      eapply stake_op_fit; [exact I|exact Hg| |exact Hop].
      cbv beta. intros sd1 k k' am pw z Ho _. apply bind_Some in Ho as ([k1 inc] & _ & Ho). apply bind_Some in Ho as (q & _ & Ho).
      apply bind_Some in Ho as (p & Hp & Ho). injection Ho as <- <- <- <-. apply cadd_Some in Hp as [-> Hp]. exact Hp.
    + apply bind_Some in Hc as (u4 & _ & Hc). unfold deposit_reward in Hc.
      apply bind_Some in Hc as (sd & Hg & Hc). apply bind_Some in Hc as (f & Hf & Hc). apply bind_Some in Hc as (g & Ha & Hc). injection Hc as <-.
      eapply get_set_fit; [exact I|exact Hg|reflexivity|reflexivity|reflexivity|]. cbn [bs_farms with_farms]. intros j h Hj.
      apply lookup_insert_Some in Hj as [[_ <-]|[_ Hj]]; [|auto]. right. destruct (proj2 (get_seed_fit _ _ _ _ I Hg) i f Hf) as (R & _ & D).
      unfold add_reward in Ha. apply bind_Some in Ha as (v & _ & Ha). apply bind_Some in Ha as (t & Ht' & Ha). injection Ha as <-.
      apply cadd_Some in Ht' as [-> Ht']. destruct (bf_start f =? 0); (split; [exact R|]; split; [exact Ht'|exact D]).
  - injection H as <-. exact I.
Qed.
Lemma breach_fit fl w : breach fl w -> fits (bw_c w).
Proof.
  induction 1 as [now owner near|w e w' Hw IH Hs]; [|eapply step_fit; eauto].
  split; [|split; vm_compute; reflexivity]. intros s sd H. cbn in H. rewrite lookup_empty in H. discriminate.
Qed.
