(** * C82: how fast a farm of the boost farming contract distributes *)
From Verif Require Import Base BaseLemmas Boost SpecBoost BoostInv BoostCalls PropBoost PropBoostStake.

(** From [f] to [f'] without changing the terms or the deposits, at time [now] at the latest. *)
Record grown (now : N) (f f' : BFarm) : Prop := mk_grown {
  gr_token : bf_token f' = bf_token f; gr_start : bf_start f' = bf_start f; gr_daily : bf_daily f' = bf_daily f;
  gr_total : bf_total f' = bf_total f; gr_dist : bf_dist f <= bf_dist f'; gr_rps : bf_rps f <= bf_rps f';
  gr_claimed : bf_claimed f <= bf_claimed f'; gr_benef : bf_benef f <= bf_benef f';
  gr_at : bf_at f <= bf_at f'; gr_now : bf_at f' <= N.max (bf_at f) now;
  gr_rate : NANOS_PER_DAY * bf_dist f' + bf_daily f * bf_at f <= NANOS_PER_DAY * bf_dist f + bf_daily f * bf_at f';
}.
Lemma grown_refl now f : grown now f f.
Proof. constructor; lia || reflexivity. Qed.
Lemma grown_trans now f g h : grown now f g -> grown now g h -> grown now f h.
Proof.
  intros [A1 A2 A3 A4 A5 A6 A7 A8 A9 A10 A11] [B1 B2 B3 B4 B5 B6 B7 B8 B9 B10 B11].
  constructor; try congruence; lia || (rewrite A3 in B11; lia).
Qed.
Lemma farm_update_grown now p f f' : farm_update now p f = Some f' -> grown now f f'.
Proof.
  unfold farm_update. destruct (now <=? bf_at f) eqn:B; [intros [= ->]; apply grown_refl|]. bool_inv.
  destruct (farm_status now f); intros H.
  - injection H as <-. apply grown_refl.
  - injection H as <-. apply grown_refl.
  - apply bind_Some in H as (l & Hl & H). apply bind_Some in H as (d & Hd & H). apply bind_Some in H as (e & He & H).
    apply u128_ratio_Some in Hd as (-> & D0 & _). apply cadd_Some in He as [-> _].
    assert (R : NANOS_PER_DAY * N.min l (bf_daily f * (now - bf_at f) / NANOS_PER_DAY) <= bf_daily f * (now - bf_at f)).
    { etransitivity; [apply N.mul_le_mono_l, N.le_min_r|]. apply N.mul_div_le. lia. }
    remember (N.min l (bf_daily f * (now - bf_at f) / NANOS_PER_DAY)) as rw eqn:Erw. clear Erw.
    rewrite N.mul_sub_distr_l in R.
    assert (bf_daily f * bf_at f <= bf_daily f * now) by (apply N.mul_le_mono_l; lia).
    destruct (0 <? p); inv; subst; constructor; cbn [bf_token bf_start bf_daily bf_total bf_dist bf_rps bf_claimed bf_benef bf_at];
      try reflexivity; try apply N.le_add_r; try lia; rewrite ?N.mul_add_distr_l; lia.
  - injection H as <-. constructor; cbn [bf_token bf_start bf_daily bf_total bf_dist bf_rps bf_claimed bf_benef bf_at]; try reflexivity; try lia.
    assert (bf_daily f * bf_at f <= bf_daily f * now) by (apply N.mul_le_mono_l; lia). lia.
Qed.

(** Every farm of [c'] in a seed of [c] with an old number was a farm of [c] and is related to it. *)
Definition farms_rel (R : BFarm -> BFarm -> Prop) (sd sd' : BSeed) : Prop :=
  bs_next sd <= bs_next sd' /\
  forall i f', bs_farms sd' !! i = Some f' -> i < bs_next sd -> exists f, bs_farms sd !! i = Some f /\ R f f'.
Definition seeds_rel (R : SeedId -> BFarm -> BFarm -> Prop) (c c' : BState) : Prop :=
  forall s sd, b_seeds c !! s = Some sd -> exists sd', b_seeds c' !! s = Some sd' /\ farms_rel (R s) sd sd'.
Lemma seeds_rel_refl now c : seeds_rel (fun _ => grown now) c c.
Proof. intros s sd Hs. exists sd. split; [exact Hs|]. split; [lia|]. intros i f Hf _. exists f. split; [exact Hf|apply grown_refl]. Qed.
Lemma seeds_rel_trans now a b c : seeds_rel (fun _ => grown now) a b -> seeds_rel (fun _ => grown now) b c -> seeds_rel (fun _ => grown now) a c.
Proof.
  intros A B s sd Hs. destruct (A s sd Hs) as (sd1 & H1 & N1 & R1). destruct (B s sd1 H1) as (sd2 & H2 & N2 & R2).
  exists sd2. split; [exact H2|]. split; [lia|]. intros i f' Hf Hi. destruct (R2 i f' Hf) as (g & Hg & Rg); [lia|].
  destruct (R1 i g Hg Hi) as (f & Hf0 & Rf). exists f. split; [exact Hf0|]. eapply grown_trans; eauto.
Qed.
Lemma seeds_rel_eq now c c1 c2 : b_seeds c2 = b_seeds c1 -> seeds_rel (fun _ => grown now) c c1 -> seeds_rel (fun _ => grown now) c c2.
Proof. intros E H s sd Hs. rewrite E. auto. Qed.
Lemma set_seed_rel (R : SeedId -> BFarm -> BFarm -> Prop) c s sd sd' c' :
  (forall s1 f, R s1 f f) -> b_seeds c' = <[s := sd']> (b_seeds c) -> b_seeds c !! s = Some sd -> farms_rel (R s) sd sd' -> seeds_rel R c c'.
Proof.
  intros Rf E Hs H s1 sd1 Hs1. rewrite E. destruct (decide (s = s1)) as [<-|Hne].
  - rewrite lookup_insert. rewrite Hs in Hs1. injection Hs1 as <-. eauto.
  - rewrite lookup_insert_ne by done. exists sd1. split; [exact Hs1|]. split; [lia|]. eauto.
Qed.
Lemma update_rel now sd sd' : seed_update now sd = Some sd' -> bs_next sd' = bs_next sd /\ forall i f', bs_farms sd' !! i = Some f' -> exists f, bs_farms sd !! i = Some f /\ grown now f f'.
Proof.
  unfold seed_update. intros H. apply bind_Some in H as (m & Hm & H). injection H as <-. split; [reflexivity|].
  intros i f' Hf. cbn [bs_farms with_farms] in Hf. destruct (map_all_inv _ _ _ _ _ Hm Hf) as (f & Hf0 & Hu). exists f. split; [exact Hf0|]. eapply farm_update_grown, Hu.
Qed.
Lemma claim_rel fl g now s F sd F' sd' :
  do_claim fl g s F sd = Some (F', sd') -> bs_next sd' = bs_next sd /\ forall i f', bs_farms sd' !! i = Some f' -> exists f, bs_farms sd !! i = Some f /\ grown now f f'.
Proof.
  intros H. apply do_claim_Some in H as (k & k' & res & rw & t & _ & Hres & _ & _ & _ & _ & ->). split; [reflexivity|].
  intros i f' Hf. cbn [bs_farms with_farms with_total] in Hf. rewrite lookup_fmap in Hf.
  destruct (res !! i) as [[y n]|] eqn:Hr; [|discriminate]. injection Hf as <-.
  destruct (map_all_inv _ _ _ _ _ Hres Hr) as (f & Hf0 & Hc). apply claim_farm_Some in Hc as (-> & _ & _). exists f. split; [exact Hf0|].
  constructor; cbn [fst bf_token bf_start bf_daily bf_total bf_dist bf_rps bf_claimed bf_benef bf_at]; reflexivity || lia.
Qed.
Lemma get_claim_rel fl g now c s F sd F' sd' :
  get_seed now c s = Some sd -> do_claim fl g s F sd = Some (F', sd') ->
  exists sd0, b_seeds c !! s = Some sd0 /\ bs_next sd' = bs_next sd0 /\
    forall i f', bs_farms sd' !! i = Some f' -> exists f, bs_farms sd0 !! i = Some f /\ grown now f f'.
Proof.
  intros Hg Hc. unfold get_seed in Hg. apply bind_Some in Hg as (sd0 & Hs0 & Hu).
  destruct (update_rel _ _ _ Hu) as [N1 R1]. destruct (claim_rel _ _ now _ _ _ _ _ Hc) as [N2 R2].
  exists sd0. split; [exact Hs0|]. split; [congruence|]. intros i f' Hf.
  destruct (R2 i f' Hf) as (g1 & Hg1 & Rg). destruct (R1 i g1 Hg1) as (f & Hf0 & Rf). exists f. split; [exact Hf0|]. eapply grown_trans; eauto.
Qed.
Lemma update_seeds_rel fl now l : forall c F c' F',
  update_seeds fl now l c F = Some (c', F') -> seeds_rel (fun _ => grown now) c c'.
Proof.
  induction l as [|s l IH]; intros c F c' F' H; cbn [update_seeds] in H.
  { injection H as <- <-. apply seeds_rel_refl. }
  destruct (b_stakes F !! s); [|eauto].
  apply bind_Some in H as (sd & Hg & H). apply bind_Some in H as ([F1 sd1] & Hc & H).
  eapply seeds_rel_trans; [|eapply IH, H].
  destruct (get_claim_rel _ _ _ _ _ _ _ _ _ Hg Hc) as (sd0 & Hs0 & N0 & R0).
  eapply (set_seed_rel _ c s sd0 sd1); [intros; apply grown_refl|reflexivity|exact Hs0|]. split; [lia|]. intros i f' Hf _. eauto.
Qed.
(** [update_seeds] does not touch a seed outside its list *)
Lemma update_seeds_other fl now l s : s ∉ l -> forall c F c' F', update_seeds fl now l c F = Some (c', F') -> b_seeds c' !! s = b_seeds c !! s.
Proof.
  intros Hni. induction l as [|s1 l IH]; intros c F c' F' H; cbn [update_seeds] in H.
  { now injection H as <- <-. }
  apply not_elem_of_cons in Hni as [Hne Hni]. destruct (b_stakes F !! s1); [|eauto].
  apply bind_Some in H as (sd & Hg & H). apply bind_Some in H as ([F1 sd1] & Hc & H).
  rewrite (IH Hni _ _ _ _ H). cbn [set_seed set_seeds b_seeds]. apply lookup_insert_ne; congruence.
Qed.
Lemma stake_op_rel fl now c a s F sd op c' sl :
  get_seed now c s = Some sd -> stake_op fl now c a s F sd op = Some (c', sl) -> seeds_rel (fun _ => grown now) c c'.
Proof.
  intros Hg H. unfold stake_op in H. apply bind_Some in H as ([F1 sd1] & Hcl & H). apply bind_Some in H as (k & Hk & H).
  apply bind_Some in H as ([[[k' am] pw] sl'] & Hop & H). apply bind_Some in H as ([c2 F2] & Him & H). injection H as <- <-.
  destruct (get_claim_rel _ _ _ _ _ _ _ _ _ Hg Hcl) as (sd0 & Hs0 & N0 & R0).
  assert (J : seeds_rel (fun _ => grown now) c c2).
  { unfold update_impacted in Him. destruct (c_boosters (b_cfg c) !! s).
    - eapply update_seeds_rel, Him.
    - injection Him as <- <-. apply seeds_rel_refl. }
  intros s1 sd2 Hs1. cbn [set_seed set_seeds b_seeds set_farmer set_farmers]. destruct (decide (s = s1)) as [<-|Hne].
  - rewrite lookup_insert. exists (with_total sd1 am pw). split; [reflexivity|]. rewrite Hs0 in Hs1. injection Hs1 as <-.
    split; [cbn [bs_next with_total]; lia|]. intros i f' Hf _. cbn [bs_farms with_total] in Hf. eauto.
  - rewrite lookup_insert_ne by done. apply (J s1 sd2 Hs1).
Qed.

(** ** One event *)
(** What an event may do to a farm: it may add rewards, start a farm that had no start time, and change the daily
    reward after accounting for the time before. *)
Record farm_step (now : N) (f f' : BFarm) : Prop := mk_fs {
  fs_token : bf_token f' = bf_token f;
  fs_total : bf_total f <= bf_total f';
  fs_dist : bf_dist f <= bf_dist f'; fs_claimed : bf_claimed f <= bf_claimed f'; fs_benef : bf_benef f <= bf_benef f';
  fs_now : bf_at f' <= N.max (bf_at f) now;
  fs_started : bf_start f <> 0 -> bf_start f' = bf_start f /\ bf_at f <= bf_at f';
  fs_rate : bf_dist f' <= bf_dist f + bf_daily f * (bf_at f' - bf_at f) / NANOS_PER_DAY;
}.
Lemma grown_step now f f' : grown now f f' -> farm_step now f f' /\ bf_daily f' = bf_daily f.
Proof.
  intros [A1 A2 A3 A4 A5 A6 A7 A8 A9 A10 A11]. split; [|exact A3]. constructor; auto.
  - rewrite A4. reflexivity.
  - assert (P : 0 < NANOS_PER_DAY) by (vm_compute; reflexivity).
    assert (bf_dist f' - bf_dist f <= bf_daily f * (bf_at f' - bf_at f) / NANOS_PER_DAY); [|lia].
    apply N.div_le_lower_bound; [lia|]. rewrite N.mul_sub_distr_l, N.mul_sub_distr_l. lia.
Qed.
(** the farm whose daily reward an event sets *)
Definition retimed (e : bevent) : option (SeedId * N) :=
  match e with BvCall _ _ _ (BModifyDaily s i _) => Some (s, i) | _ => None end.
Definition step_rel (e : bevent) (now : N) (s : SeedId) (i : N) (f f' : BFarm) : Prop :=
  farm_step now f f' /\ (retimed e <> Some (s, i) -> bf_daily f' = bf_daily f).
Definition seeds_step (e : bevent) (now : N) (c c' : BState) : Prop :=
  forall s sd, b_seeds c !! s = Some sd -> exists sd', b_seeds c' !! s = Some sd' /\ bs_next sd <= bs_next sd' /\
    forall i f', bs_farms sd' !! i = Some f' -> i < bs_next sd -> exists f, bs_farms sd !! i = Some f /\ step_rel e now s i f f'.
Lemma rel_step e now c c' : seeds_rel (fun _ => grown now) c c' -> seeds_step e now c c'.
Proof.
  intros H s sd Hs. destruct (H s sd Hs) as (sd' & Hs' & Hn & R). exists sd'. split; [exact Hs'|]. split; [exact Hn|].
  intros i f' Hf Hi. destruct (R i f' Hf Hi) as (f & Hf0 & G). exists f. split; [exact Hf0|].
  destruct (grown_step now f f' G) as [G1 G2]. split; auto.
Qed.
Lemma get_set_rel now c s sd sd' c' :
  get_seed now c s = Some sd -> b_seeds c' = <[s := sd']> (b_seeds c) -> bs_next sd <= bs_next sd' ->
  (forall i f, bs_farms sd' !! i = Some f -> i < bs_next sd -> bs_farms sd !! i = Some f) -> seeds_rel (fun _ => grown now) c c'.
Proof.
  intros Hg E Hn Hf. unfold get_seed in Hg. apply bind_Some in Hg as (sd0 & Hs0 & Hu).
  destruct (update_rel _ _ _ Hu) as [N1 R1].
  eapply (set_seed_rel _ c s sd0 sd'); [intros; apply grown_refl|exact E|exact Hs0|]. split; [lia|].
  intros i f' Hf' Hi. apply R1. apply Hf; [exact Hf'|lia].
Qed.
Lemma call_rel fl now c a att x c' out :
  bcall_exec fl now c a att x = Some (c', out) -> seeds_step (BvCall now a att x) now c c'.
Proof.
  intros H. unfold bcall_exec in H. apply bind_Some in H as (u & _ & H).
  assert (Same : forall d, b_seeds d = b_seeds c -> seeds_rel (fun _ => grown now) c d).
  { intros d E. eapply seeds_rel_eq; [exact E|apply seeds_rel_refl]. }
  destruct x.
  20: apply bind_Some in H as (u1 & Hu1 & H).
  1-20: apply bind_Some in H as (c1 & Hc & H); injection H as <- <-.
  6: { unfold modify_daily in Hc. apply bind_Some in Hc as (v & _ & Hc). apply bind_Some in Hc as (sd & Hg & Hc).
       apply bind_Some in Hc as (f & Hf & Hc). injection Hc as <-.
       unfold get_seed in Hg. apply bind_Some in Hg as (sd0 & Hs0 & Hu). destruct (update_rel _ _ _ Hu) as [N1 R1].
       intros s1 sd1 Hs1. cbn [set_seed set_seeds b_seeds]. destruct (decide (s = s1)) as [<-|Hne].
       - rewrite lookup_insert. rewrite Hs0 in Hs1. injection Hs1 as <-. eexists. split; [reflexivity|].
         cbn [bs_next with_farms bs_farms]. split; [lia|]. intros j f' Hf' _. destruct (decide (i = j)) as [<-|Hij].
         + rewrite lookup_insert in Hf'. injection Hf' as <-. destruct (R1 i f Hf) as (f0 & Hf0 & G).
           exists f0. split; [exact Hf0|]. destruct (grown_step _ _ _ G) as [[S1 S2 S3 S4 S5 S6 S7 S8] _].
           split; [constructor; cbn [bf_token bf_start bf_daily bf_total bf_dist bf_rps bf_claimed bf_benef bf_at]; auto|].
           cbn [retimed]. congruence.
         + rewrite lookup_insert_ne in Hf' by done. destruct (R1 j f' Hf') as (f0 & Hf0 & G). exists f0. split; [exact Hf0|].
           destruct (grown_step _ _ _ G). split; auto.
       - rewrite lookup_insert_ne by done. exists sd1. split; [exact Hs1|]. split; [lia|]. intros j f' Hf' _. exists f'. split; [exact Hf'|].
         destruct (grown_step now f' f' (grown_refl now f')). split; auto. }
  all: apply rel_step.
  - unfold create_seed in Hc. apply bind_Some in Hc as (v & _ & Hc). destruct (b_seeds c !! s) eqn:Es; [discriminate|]. injection Hc as <-.
    intros s1 sd1 Hs1. cbn [set_seed set_seeds b_seeds]. rewrite lookup_insert_ne by congruence. apply (seeds_rel_refl now c s1 sd1 Hs1).
  - unfold create_farm in Hc. apply bind_Some in Hc as (v & _ & Hc). apply bind_Some in Hc as (sd & Hg & Hc). inv; subst.
    eapply get_set_rel; [exact Hg|reflexivity| |]; cbn [bs_next with_next bs_farms with_farms]; [lia|].
    intros i f Hf Hi. rewrite lookup_insert_ne in Hf by lia. exact Hf.
  - unfold cancel_farm in Hc. apply bind_Some in Hc as (v & _ & Hc). apply bind_Some in Hc as (sd & Hg & Hc). inv; subst.
    eapply get_set_rel; [exact Hg|reflexivity| |]; cbn [bs_next bs_farms with_farms]; [lia|].
    intros j g Hj _. apply lookup_delete_Some in Hj as [_ Hj]. exact Hj.
  - unfold remove_farm in Hc. apply bind_Some in Hc as (v & _ & Hc). apply bind_Some in Hc as (v1 & _ & Hc). apply bind_Some in Hc as (sd & Hg & Hc). inv; subst.
    eapply get_set_rel; [exact Hg|reflexivity| |]; cbn [bs_next bs_farms with_farms]; [lia|].
    intros j g Hj _. apply lookup_delete_Some in Hj as [_ Hj]. exact Hj.
  - apply Same. unfold modify_booster in Hc. inv; subst. reflexivity.
  - apply Same. unfold modify_locking_policy in Hc. inv; subst. reflexivity.
  - apply Same. unfold modify_max_farms in Hc. inv; subst. reflexivity.
  - apply Same. unfold modify_default_slash in Hc. inv; subst. reflexivity.
  - unfold modify_min_deposit in Hc. apply bind_Some in Hc as (v & _ & Hc). apply bind_Some in Hc as (sd & Hg & Hc). injection Hc as <-.
    eapply get_set_rel; [exact Hg|reflexivity| |]; cbn [bs_next bs_farms with_terms]; [lia|auto].
  - unfold modify_min_lock in Hc. apply bind_Some in Hc as (v & _ & Hc). apply bind_Some in Hc as (v1 & _ & Hc). apply bind_Some in Hc as (sd & Hg & Hc). injection Hc as <-.
    eapply get_set_rel; [exact Hg|reflexivity| |]; cbn [bs_next bs_farms with_terms]; [lia|auto].
  - unfold modify_slash in Hc. apply bind_Some in Hc as (v & _ & Hc). apply bind_Some in Hc as (sd & Hg & Hc). injection Hc as <-.
    eapply get_set_rel; [exact Hg|reflexivity| |]; cbn [bs_next bs_farms with_terms]; [lia|auto].
  - apply Same. unfold b_set_owner in Hc. inv; subst. reflexivity.
  - apply Same. unfold b_set_state in Hc. inv; subst. reflexivity.
  - apply Same. unfold b_set_state in Hc. inv; subst. reflexivity.
  - apply Same. unfold extend_operators in Hc. inv; subst. reflexivity.
  - apply Same. unfold remove_operators in Hc. inv; subst. reflexivity.
  - unfold lock_free_seed in Hc.
    apply bind_Some in Hc as (u3 & _ & Hc). apply bind_Some in Hc as (u4 & _ & Hc).
    apply bind_Some in Hc as (F & HF & Hc). apply bind_Some in Hc as (sd & Hg & Hc). apply bind_Some in Hc as (u5 & _ & Hc).
    apply bind_Some in Hc as ([c2 sl] & Hop & Hc). injection Hc as ->. eapply stake_op_rel; eauto.
  - unfold force_unlock in Hc.
    apply bind_Some in Hc as (u3 & _ & Hc). apply bind_Some in Hc as (u4 & _ & Hc).
    apply bind_Some in Hc as (F & HF & Hc). apply bind_Some in Hc as (sd & Hg & Hc).
    apply bind_Some in Hc as ([c2 sl] & Hop & Hc). apply bind_Some in Hc as (m & Hm & Hc). injection Hc as <-.
    eapply seeds_rel_eq; [|eapply stake_op_rel; eauto]. reflexivity.
  - unfold claim_reward_by_seed in Hc. apply bind_Some in Hc as (u3 & _ & Hc).
    apply bind_Some in Hc as (F & HF & Hc). apply bind_Some in Hc as (sd & Hg & Hc).
    apply bind_Some in Hc as ([F' sd'] & Hcl & Hc). injection Hc as <-.
    destruct (get_claim_rel _ _ _ _ _ _ _ _ _ Hg Hcl) as (sd0 & Hs0 & N0 & R0).
    eapply (set_seed_rel _ c s sd0 sd'); [intros; apply grown_refl|reflexivity|exact Hs0|]. split; [lia|]. intros i f' Hf _. eauto.
  - apply Same. unfold b_storage_deposit in H. apply bind_Some in H as (v & _ & H).
    destruct (b_farmers c !! default a acc); inv; subst; reflexivity.
  - discriminate.
  - apply Same. unfold b_storage_unregister in H. apply bind_Some in H as (v & _ & H).
    destruct (b_farmers c !! a); inv; subst; reflexivity.
Qed.
Lemma step_seeds fl w e w' : bstep fl w e = Some w' -> seeds_step e (bw_now w') (bw_c w) (bw_c w') /\ bw_now w <= bw_now w'.
Proof.
  intros H. unfold bstep in H. destruct e as [now a att x|now mft asset sender amount msg|asset amount].
  - apply bind_Some in H as (u & Ht & H). unfold b_tick in Ht. apply ensure_Some in Ht. bool_inv.
    apply bind_Some in H as ([c' out] & Hc & H). apply bind_Some in H as (n & _ & H). injection H as <-. cbn [bw_c bw_now].
    split; [eapply call_rel, Hc|assumption].
  - apply bind_Some in H as (u & Ht & H). unfold b_tick in Ht. apply ensure_Some in Ht. bool_inv.
    apply bind_Some in H as (u1 & _ & H). apply bind_Some in H as (u2 & _ & H).
    apply bind_Some in H as (c' & Hc & H). injection H as <-. cbn [bw_c bw_now]. split; [|assumption].
    unfold on_transfer in Hc. apply bind_Some in Hc as (u3 & _ & Hc). destruct msg as [|dur|s i].
    + apply rel_step. unfold stake_free_seed in Hc.
      apply bind_Some in Hc as (F & HF & Hc). apply bind_Some in Hc as (sd & Hg & Hc). apply bind_Some in Hc as (u4 & _ & Hc).
      apply bind_Some in Hc as ([c1 sl] & Hop & Hc). injection Hc as ->. eapply stake_op_rel; eauto.
    + apply rel_step. unfold stake_lock_seed in Hc.
      apply bind_Some in Hc as (F & HF & Hc). apply bind_Some in Hc as (sd & Hg & Hc). apply bind_Some in Hc as (u4 & _ & Hc).
      apply bind_Some in Hc as (u5 & _ & Hc). apply bind_Some in Hc as ([c1 sl] & Hop & Hc). injection Hc as ->. eapply stake_op_rel; eauto.
    + apply bind_Some in Hc as (u4 & _ & Hc). unfold deposit_reward in Hc.
      apply bind_Some in Hc as (sd & Hg & Hc). apply bind_Some in Hc as (f & Hf & Hc). apply bind_Some in Hc as (g & Ha & Hc). injection Hc as <-.
      unfold get_seed in Hg. apply bind_Some in Hg as (sd0 & Hs0 & Hu). destruct (update_rel _ _ _ Hu) as [N1 R1].
      intros s1 sd1 Hs1. cbn [set_seed set_seeds b_seeds]. destruct (decide (s = s1)) as [<-|Hne].
      * rewrite lookup_insert. rewrite Hs0 in Hs1. injection Hs1 as <-. eexists. split; [reflexivity|].
        cbn [bs_next with_farms bs_farms]. split; [lia|]. intros j f' Hf' _. destruct (decide (i = j)) as [<-|Hij].
        -- rewrite lookup_insert in Hf'. injection Hf' as <-. destruct (R1 i f Hf) as (f0 & Hf0 & G).
           exists f0. split; [exact Hf0|]. pose proof (gr_start _ _ _ G) as Gs. destruct (grown_step _ _ _ G) as [[S1 S2 S3 S4 S5 S6 S7 S8] S9].
           unfold add_reward in Ha. inv; subst. destruct (bf_start f =? 0) eqn:B; bool_inv.
           ++ assert (bf_dist f = bf_dist f0) as D0.
              { unfold seed_update in Hu. apply bind_Some in Hu as (m & Hm & Hu). injection Hu as <-. cbn [bs_farms with_farms] in Hf.
                destruct (map_all_inv _ _ _ _ _ Hm Hf) as (f1 & Hf1 & Hup). rewrite Hf0 in Hf1. injection Hf1 as <-.
                unfold farm_update in Hup. destruct (now <=? bf_at f0); [injection Hup as <-; reflexivity|].
                assert (farm_status now f0 = BCreated) as E.
                { unfold farm_status. replace (bf_start f0 =? 0) with true; [reflexivity|]. symmetry. apply N.eqb_eq. congruence. }
                rewrite E in Hup. injection Hup as <-. reflexivity. }
              split; [|intros _; exact S9].
              constructor; cbn [bf_token bf_start bf_daily bf_total bf_dist bf_rps bf_claimed bf_benef bf_at]; auto; try lia.
              rewrite D0; apply N.le_add_r.
           ++ split; [|intros _; exact S9].
              constructor; cbn [bf_token bf_start bf_daily bf_total bf_dist bf_rps bf_claimed bf_benef bf_at]; auto; lia.
        -- rewrite lookup_insert_ne in Hf' by done. destruct (R1 j f' Hf') as (f0 & Hf0 & G). exists f0. split; [exact Hf0|].
           destruct (grown_step _ _ _ G). split; auto.
      * rewrite lookup_insert_ne by done. exists sd1. split; [exact Hs1|]. split; [lia|]. intros j f' Hf' _. exists f'. split; [exact Hf'|].
        destruct (grown_step now f' f' (grown_refl now f')). split; auto.
  - injection H as <-. cbn [bw_c bw_now]. split; [|lia]. apply rel_step, seeds_rel_refl.
Qed.

(** ** C82 *)
(** A farm's deposits, distributed, claimed and beneficiary amounts never decrease, in one event it distributes at
    most its daily reward for the time since its last distribution, and a farm that has a start time keeps it. *)
Theorem C82_step fl w e w' s sd i f' :
  bstep fl w e = Some w' -> b_seeds (bw_c w) !! s = Some sd -> i < bs_next sd ->
  exists sd', b_seeds (bw_c w') !! s = Some sd' /\
  (bs_farms sd' !! i = Some f' -> exists f, bs_farms sd !! i = Some f /\ farm_step (bw_now w') f f' /\
     (retimed e <> Some (s, i) -> bf_daily f' = bf_daily f)).
Proof.
  intros H Hs Hi. destruct (proj1 (step_seeds fl w e w' H) s sd Hs) as (sd' & Hs' & _ & R). exists sd'. split; [exact Hs'|].
  intros Hf. destruct (R i f' Hf Hi) as (f & Hf0 & S1 & S2). eauto.
Qed.
(** Over any number of events that leave the daily reward alone, a farm that has a start time distributes at most
    the daily reward for the time that passed, up to the last event. *)
Theorem C82_rate fl l : forall w w' s i sd sd' f f',
  breach fl w -> zero_extra fl -> brun fl w l = Some w' -> Forall (fun e => retimed e <> Some (s, i)) l ->
  b_seeds (bw_c w) !! s = Some sd -> bs_farms sd !! i = Some f -> bf_start f <> 0 ->
  b_seeds (bw_c w') !! s = Some sd' -> bs_farms sd' !! i = Some f' ->
  bf_start f' = bf_start f /\ bf_daily f' = bf_daily f /\ bf_at f <= bf_at f' <= N.max (bf_at f) (bw_now w') /\
  bf_dist f <= bf_dist f' <= bf_dist f + bf_daily f * (bf_at f' - bf_at f) / NANOS_PER_DAY.
Proof.
  assert (Dp : NANOS_PER_DAY <> 0) by (vm_compute; discriminate).
  assert (Gen : forall l w w' s i sd sd' f', brun fl w l = Some w' -> Forall (fun e => retimed e <> Some (s, i)) l ->
    b_seeds (bw_c w) !! s = Some sd -> i < bs_next sd -> b_seeds (bw_c w') !! s = Some sd' -> bs_farms sd' !! i = Some f' ->
    bw_now w <= bw_now w' /\ exists f, bs_farms sd !! i = Some f /\ (bf_start f <> 0 ->
    bf_start f' = bf_start f /\ bf_daily f' = bf_daily f /\ bf_at f <= bf_at f' <= N.max (bf_at f) (bw_now w') /\
    bf_dist f <= bf_dist f' <= bf_dist f + bf_daily f * (bf_at f' - bf_at f) / NANOS_PER_DAY)).
  { clear l. induction l as [|e l IH]; intros w w' s i sd sd' f' R Fa Hs Hi Hs' Hf'; cbn [brun] in R.
    - injection R as <-. rewrite Hs in Hs'. injection Hs' as <-. split; [lia|]. exists f'. split; [exact Hf'|].
      intros _. split; [reflexivity|]. split; [reflexivity|]. split; [lia|]. split; [lia|]. apply N.le_add_r.
    - apply bind_Some in R as (w1 & H1 & R). apply Forall_cons in Fa as [Fe Fl].
      destruct (step_seeds fl w e w1 H1) as [St Tn]. destruct (St s sd Hs) as (sd1 & Hs1 & Hn & R1).
      destruct (IH w1 w' s i sd1 sd' f' R Fl Hs1 ltac:(lia) Hs' Hf') as (T2 & g & Hg & G). split; [lia|].
      destruct (R1 i g Hg Hi) as (f & Hf & [S1 S2 S3 S4 S5 S6 S7 S8] & S9). exists f. split; [exact Hf|]. intros St0.
      destruct (S7 St0) as [E1 E2]. specialize (S9 Fe). destruct G as (G1 & G2 & G3 & G4); [congruence|].
      split; [congruence|]. split; [congruence|]. split; [lia|]. split; [lia|]. rewrite S9 in G4.
      assert (bf_daily f * (bf_at g - bf_at f) / NANOS_PER_DAY + bf_daily f * (bf_at f' - bf_at g) / NANOS_PER_DAY
              <= bf_daily f * (bf_at f' - bf_at f) / NANOS_PER_DAY); [|lia].
      replace (bf_daily f * (bf_at f' - bf_at f)) with (bf_daily f * (bf_at g - bf_at f) + bf_daily f * (bf_at f' - bf_at g))
        by (rewrite <- N.mul_add_distr_l; f_equal; lia).
      apply N.div_le_lower_bound; [exact Dp|]. rewrite N.mul_add_distr_l. apply N.add_le_mono; apply N.mul_div_le; exact Dp. }
  intros w w' s i sd sd' f f' Hw Z R Fa Hs Hf St Hs' Hf'.
  pose proof (si_next _ _ _ _ (bi_seed _ _ _ (wb_inv _ _ (breach_inv fl w Z Hw)) s sd Hs) i f Hf) as Hi.
  destruct (Gen l w w' s i sd sd' f' R Fa Hs Hi Hs' Hf') as (_ & f0 & Hf0 & G). rewrite Hf in Hf0. injection Hf0 as <-. auto.
Qed.
(** Numbers of farms are never used again: a farm that is gone stays gone. *)
Theorem C82_gone fl l : forall w w' s i sd sd',
  brun fl w l = Some w' -> b_seeds (bw_c w) !! s = Some sd -> i < bs_next sd -> bs_farms sd !! i = None ->
  b_seeds (bw_c w') !! s = Some sd' -> bs_farms sd' !! i = None.
Proof.
  induction l as [|e l IH]; intros w w' s i sd sd' R Hs Hi Hn Hs'; cbn [brun] in R.
  - injection R as <-. congruence.
  - apply bind_Some in R as (w1 & H1 & R).
    destruct (step_seeds fl w e w1 H1) as [St _]. destruct (St s sd Hs) as (sd1 & Hs1 & Hnx & R1).
    eapply (IH w1 w' s i sd1); eauto; [lia|]. destruct (bs_farms sd1 !! i) as [f'|] eqn:E; [|reflexivity].
    destruct (R1 i f' E Hi) as (f & Hf & _). congruence.
Qed.
Print Assumptions C81_free.
Print Assumptions C81_lock.
Print Assumptions C81_lock_free.
Print Assumptions C81_unlock.
Print Assumptions C81_else.
Print Assumptions C81_own.
Print Assumptions C81_rewards_kept.
Print Assumptions C81_boost_bounds.
Print Assumptions C81_boost_mono.
Print Assumptions C81_lock_state.
Print Assumptions C81_penalty.
Print Assumptions C82_step.
Print Assumptions C82_rate.
Print Assumptions C82_gone.

(** ** Cases: the lock and the early unlock of the events of [PropBoost], and the farm over a day and a half *)
Definition ex_upto (n : nat) : option BWorld := brun ex_fl (bw_init ex_t0 "owner" 0) (take n ex_events).
Example C81_case :
  (w ← ex_upto 9; w' ← ex_upto 14; Some (stake_in (bw_c w) "bob" "lp", stake_in (bw_c w') "bob" "lp")) =
  Some (0, 20000, 30000, ex_t0 + 86400 * 180 * 10 ^ 9, 86400 * 180, (4902, 15000, 22500, ex_t0 + 86400 * 180 * 10 ^ 9, 86400 * 180)).
Proof. vm_compute. reflexivity. Qed.
Definition ex_farm (w : BWorld) : option (N * N * N * N) :=
  sd ← b_seeds (bw_c w) !! "lp"; f ← bs_farms sd !! 0; Some (bf_start f, bf_daily f, bf_at f - ex_t0, bf_dist f).
Example C82_case :
  (w ← ex_upto 10; w' ← ex_upto 13; f ← ex_farm w; f' ← ex_farm w'; Some (f, f')) =
  Some (1700000000, 10 ^ 6, 0, 0, (1700000000, 10 ^ 6, 115200 * 10 ^ 9, 1333333)).
Proof. vm_compute. reflexivity. Qed.
