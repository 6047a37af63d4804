(** * Claims, stakes and withdrawals of the farming contract succeed: C48 (over histories), C76.
    Vocabulary: SpecFarming.v, SpecFarmLive.v. *)
From Verif Require Import Base BaseLemmas Farming SpecFarming FarmingProofs FarmingInv FarmingWorld.
From Verif Require Import FarmingViews SpecFarmNear SpecFarmLive PropFarming PropFarmNear.

(** ** Every farm fits in its integers *)
Definition fits (f : Farm) : Prop :=
  f_reward f < W128 /\ d_rps (f_dist f) <= (d_unclaimed (f_dist f) + f_claimed f) * DENOM.

Lemma fits_distribute now f S f1 : fits f -> distribute now f S = Some f1 -> fits f1.
Proof.
  intros (F1 & F2) H. apply distribute_Some in H as (_ & Hr & _ & added & _ & _ & _ & _ & _ & A6). unfold fits. rewrite Hr. split; [done|].
  destruct A6 as [(-> & -> & _ & [(-> & ->)|(HS & ->)])|(_ & _ & -> & _)]; [lia| |lia].
  assert (added * DENOM / S <= added * DENOM) by (apply N.div_le_upper_bound; [lia|]; nia). lia.
Qed.
Lemma fits_claim f1 am : fits f1 -> am <= d_unclaimed (f_dist f1) ->
  fits (mkFarm (f_terms f1) (f_status f1)
         (mkDist (d_undist (f_dist f1)) (d_unclaimed (f_dist f1) - am) (d_rps (f_dist f1)) (d_rr (f_dist f1)))
         (f_reward f1) (f_claimed f1 + am) (f_benef f1)).
Proof. unfold fits. cbn. intros (F1 & F2) Hle. split; [done|]. replace (_ - am + _) with (d_unclaimed (f_dist f1) + f_claimed f1) by lia. done. Qed.
Lemma fits_new t : fits (farm_new t).
Proof. unfold fits. cbn. split; [reflexivity|lia]. Qed.
Lemma fits_add_reward now f am f' : fits f -> farm_add_reward now f am = Some (Some f') -> fits f'.
Proof.
  intros (F1 & F2) H. unfold fits. pose proof H as H0.
  apply farm_add_reward_Some in H as (_ & _ & _ & _ & Hd & Hc & _). rewrite Hd, Hc. cbn [d_set_undist d_rps d_unclaimed]. split; [|done].
  unfold farm_add_reward in H0. destruct (f_status f); try discriminate.
  - destruct (t_start (f_terms f) =? 0); inv; subst; cbn; done.
  - destruct (try_distribute now f DENOM) as [od|]; [|discriminate]. cbn [mbind option_bind] in H0.
    match type of H0 with (if ?b then _ else _) = _ => destruct b end; inv; try discriminate; subst; cbn; done.
Qed.

(** ** A distribution goes through *)
Lemma W32_val : W32 = 2 ^ 32. Proof. reflexivity. Qed.
Lemma W128_val : W128 = 2 ^ 32 * 2 ^ 96. Proof. reflexivity. Qed.
Lemma W256_val : W256 = W128 * W128. Proof. reflexivity. Qed.
Lemma DENOM_small : DENOM < W128. Proof. reflexivity. Qed.

Lemma to_sec_small now : now < W32 * 10 ^ 9 -> to_sec now = now / 10 ^ 9.
Proof. intros H. unfold to_sec. apply N.mod_small. apply N.div_lt_upper_bound; [lia|]. rewrite N.mul_comm. exact H. Qed.

Lemma reward_round_defined f rr0 :
  d_rr (f_dist f) <= rr0 -> rr0 < W32 -> t_rps (f_terms f) < 2 ^ 96 -> d_undist (f_dist f) < W128 ->
  is_Some (reward_round f rr0).
Proof.
  intros H1 H2 H3 H4. unfold reward_round. set (R := t_rps (f_terms f)) in *. set (U := d_undist (f_dist f)) in *. set (r := d_rr (f_dist f)) in *.
  rewrite csub_intro by done. cbn [mbind option_bind].
  assert (Hm : (rr0 - r) * R < W128).
  { rewrite W128_val. rewrite W32_val in H2. apply N.mul_lt_mono; lia. }
  rewrite cmul_intro by done. cbn [mbind option_bind].
  destruct (N.ltb_spec U ((rr0 - r) * R)) as [HU|HU]; [|eauto].
  assert (HR : 0 < R) by lia.
  rewrite cdiv_intro by done. cbn [mbind option_bind].
  pose proof (div_mul_le U R HR) as Hq1. pose proof (lt_div_succ U R HR) as Hq2. set (q := U / R) in *. clearbody q R U r.
  assert (Hq : q < rr0 - r) by nia.
  rewrite (N.mod_small q W32) by lia. rewrite cadd_intro by lia. cbn [mbind option_bind].
  rewrite cmul_intro by lia. cbn [mbind option_bind].
  destruct (q * R <? U); [rewrite cadd_intro by lia|]; cbn [mbind option_bind]; eauto.
Qed.

Lemma try_distribute_defined now f S :
  farm_wf now f -> fits f -> sane (f_terms f) -> now < W32 * 10 ^ 9 -> is_Some (try_distribute now f S).
Proof.
  intros (W1 & _ & _ & W4 & _) (F1 & F2) (S1 & S2) Hn. unfold try_distribute. destruct (f_status f); eauto.
  destruct (N.ltb_spec now (to_nano (t_start (f_terms f)))) as [Ht|Ht]; [eauto|].
  unfold to_nano in Ht. rewrite (to_sec_small now Hn).
  assert (Hs : t_start (f_terms f) <= now / 10 ^ 9) by (apply N.div_le_lower_bound; [lia|]; rewrite N.mul_comm; exact Ht).
  rewrite csub_intro by done. cbn [mbind option_bind]. rewrite cdiv_intro by done. cbn [mbind option_bind].
  fold (sessions now (f_terms f)).
  assert (Hss : sessions now (f_terms f) < W32).
  { rewrite <- (to_sec_small now Hn) in *. unfold sessions. rewrite <- (to_sec_small now Hn). pose proof (to_sec_lt now).
    eapply N.le_lt_trans; [apply N.div_le_upper_bound; [lia|]|eassumption]. nia. }
  destruct (reward_round_defined f (sessions now (f_terms f))) as [[added rr] Hrr]; [done|done|done|lia|].
  rewrite Hrr. cbn [mbind option_bind].
  apply reward_round_Some in Hrr as (Q1 & Q2 & Q3 & Q4 & Q5 & _); [|done].
  rewrite cadd_intro by lia. cbn [mbind option_bind]. rewrite csub_intro by done. cbn [mbind option_bind].
  destruct (N.eqb_spec S 0) as [HS|HS]; cbn [mbind option_bind]; [eauto|].
  pose proof DENOM_small as HD. pose proof DENOM_pos as HD0.
  assert (Hx : added * DENOM < W256). { rewrite W256_val. apply N.mul_lt_mono; lia. }
  rewrite cmul_intro by done. cbn [mbind option_bind]. rewrite cdiv_intro by lia. cbn [mbind option_bind].
  assert (added * DENOM / S <= added * DENOM) by (apply N.div_le_upper_bound; [lia|]; nia).
  rewrite cadd_intro; [cbn [mbind option_bind]; eauto|].
  assert (Hb : (d_unclaimed (f_dist f) + f_claimed f) * DENOM + added * DENOM < W256).
  { rewrite <- N.mul_add_distr_r, W256_val. apply N.mul_lt_mono; lia. }
  lia.
Qed.

Lemma distribute_defined now f S :
  farm_wf now f -> fits f -> sane (f_terms f) -> now < W32 * 10 ^ 9 -> is_Some (distribute now f S).
Proof.
  intros Hwf Hf Hs Hn. destruct (try_distribute_defined now f S Hwf Hf Hs Hn) as [od Hod]. unfold distribute. rewrite Hod. cbn [mbind option_bind].
  apply try_distribute_Some in Hod. destruct od as [d|]; [|eauto]. destruct Hod as (_ & _ & added & A1 & A2 & _).
  destruct Hwf as (W1 & W2 & _), Hf as (F1 & _).
  destruct (_ =? _); [cbn [mbind option_bind]; eauto|]. destruct (S =? 0); [|cbn [mbind option_bind]; eauto].
  rewrite !cadd_intro by lia. cbn [mbind option_bind]. eauto.
Qed.

(** ** A claim goes through *)
Lemma claim_from_farm_count now c a Sd fid c' :
  claim_from_farm now c a Sd fid = Some c' ->
  exists r r', fs_farmers c !! a = Some r /\ fs_farmers c' = <[a := r']> (fs_farmers c) /\
    fr_count r' = fr_count r + match fs_rps c !! (a, fid) with Some _ => 0 | None => 1 end /\
    (fr_seeds r' = fr_seeds r /\ fr_amount r' = fr_amount r /\ (size (fr_rewards r') <= S (size (fr_rewards r)))%nat) /\
    exists v, fs_rps c' = <[(a, fid) := v]> (fs_rps c).
Proof.
  unfold claim_from_farm. intros H.
  destruct (fs_farmers c !! a) as [r|] eqn:Hr; [|discriminate]. cbn [mbind option_bind] in H.
  destruct (fs_farms c !! fid) as [f|] eqn:Hf; [|discriminate]. cbn [mbind option_bind] in H.
  destruct (claim_user_reward _ _ _ _ _) as [[[f2 rps'] am]|] eqn:Hc; [|discriminate].
  unfold set_rps in H. cbn [mbind option_bind fs_set_farms fs_farmers fs_rps] in H. rewrite Hr in H. cbn [mbind option_bind] in H.
  match type of H with context [match fs_rps c !! (a, fid) with Some _ => ?x | None => ?y end] =>
    destruct (match fs_rps c !! (a, fid) with Some _ => x | None => y end) as [n|] eqn:Hn; [|discriminate] end.
  assert (En : n = fr_count r + match fs_rps c !! (a, fid) with Some _ => 0 | None => 1 end).
  { destruct (fs_rps c !! (a, fid)); [injection Hn as <-; lia|]. apply cadd_Some in Hn as [-> _]. done. }
  cbn [mbind option_bind fs_set_rps fs_set_farmers fs_set_farms fs_farmers fs_owner fs_seeds fs_rps fs_farms fs_outdated fs_count fs_info fs_running] in H.
  exists r. rewrite lookup_insert in H. cbn [mbind option_bind] in H.
  destruct (N.ltb_spec 0 am) as [Hpos|Hpos]; inv; subst c'.
  - unfold fr_add_reward in *. inv. subst x. eexists. split; [done|]. split; [cbn; rewrite insert_insert; reflexivity|]. split; [exact En|]. split; [|cbn; eauto].
    cbn [fr_set_rewards fr_set_count fr_seeds fr_amount fr_rewards]. split; [done|]. split; [done|].
    rewrite map_size_insert. destruct (fr_rewards r !! _); unfold Datatypes.id; lia.
  - eexists. split; [done|]. split; [reflexivity|]. split; [exact En|]. split; [|cbn; eauto].
    cbn [fr_set_count fr_seeds fr_amount fr_rewards]. split; [done|]. split; [done|]. lia.
Qed.

Lemma claim_from_farm_defined now c a fid r f :
  finv now c -> now < W32 * 10 ^ 9 -> fs_farmers c !! a = Some r -> fs_farms c !! fid = Some f ->
  fits f -> sane (f_terms f) -> fr_count r + 1 < W32 -> owes c (t_reward (f_terms f)) < W128 ->
  0 < stake_of c a (fst fid) \/ fs_rps c !! (a, fid) = None ->
  is_Some (claim_from_farm now c a (seed_total c (fst fid)) fid).
Proof.
  intros Hi Hn Ha Hf Hfit Hs Hc Ho Hst. pose proof Hi as (H1 & _ & _ & H4 & _).
  destruct (H1 fid f Hf) as (Hwf & Hseed & _ & _ & Ho1 & Hst1).
  destruct (distribute_defined now f (seed_total c (fst fid)) Hwf Hfit Hs Hn) as [f1 Hd].
  pose proof (owed_distribute now c fid f _ f1 (H4 (fst fid)) Hd Ho1) as Ho2.
  pose proof (farm_wf_distribute _ _ _ _ Hwf Hd) as (W1 & W2 & _).
  pose proof (fits_distribute _ _ _ _ Hfit Hd) as (F1 & F2).
  pose proof (distribute_Some _ _ _ _ Hd) as (Ht & Hrw & _ & added & A1 & _ & _ & _ & _ & A6).
  assert (Hle : get_rps c a fid <= d_rps (f_dist f1)).
  { destruct Hst as [Hst|Hst]; [|unfold get_rps, mget; rewrite Hst; cbn; lia]. pose proof (Hst1 a Hst) as Hg.
    destruct A6 as [(_ & _ & _ & [(_ & ->)|(_ & ->)])|(HS0 & _)]; [done|etransitivity; [exact Hg|apply N.le_add_r]|].
    exfalso. rewrite H4 in HS0. unfold stakes_sum in HS0. unfold stake_of in Hst. rewrite Ha in Hst.
    pose proof (msum_zero_inv _ _ _ _ HS0 Ha) as Hz. cbn in Hz. lia. }
  unfold claim_from_farm. rewrite Ha, Hf. cbn [mbind option_bind]. unfold claim_user_reward. rewrite Hd. cbn [mbind option_bind].
  rewrite Hseed. set (us := mget (fr_seeds r) (fst fid)). set (x := us * (d_rps (f_dist f1) - get_rps c a fid)).
  assert (Hx : x <= d_unclaimed (f_dist f1) * DENOM).
  { etransitivity; [|exact Ho2]. unfold owed.
    pose proof (msum_lookup_le (fun b rb => mget (fr_seeds rb) (fst fid) * (d_rps (f_dist f1) - get_rps c b fid)) (fs_farmers c) a) as E.
    rewrite Ha in E. cbn [contrib] in E. exact E. }
  pose proof DENOM_small as HD. pose proof DENOM_pos as HD0.
  assert (Hx2 : x < W256). { eapply N.le_lt_trans; [exact Hx|]. rewrite W256_val. apply N.mul_lt_mono; lia. }
  assert (Hq : x / DENOM <= d_unclaimed (f_dist f1)) by (apply N.div_le_upper_bound; [lia|]; rewrite N.mul_comm; exact Hx).
  assert (Er : reward_of us (d_rps (f_dist f1)) (get_rps c a fid) = Some (x / DENOM)).
  { unfold reward_of. rewrite csub_intro by done. cbn [mbind option_bind]. rewrite cmul_intro by exact Hx2. cbn [mbind option_bind].
    rewrite cdiv_intro by done. cbn [mbind option_bind]. apply fit_intro. eapply N.le_lt_trans; [exact Hq|]. lia. }
  rewrite Er. clear Er. set (am := x / DENOM) in *. clearbody am. clear Hx Hx2. clearbody x.
  clear HD HD0 Ho1 Ho2 F2. cbn [mbind option_bind].
  assert (Hbal : mget (fr_rewards r) (t_reward (f_terms f)) + am < W128).
  { eapply N.le_lt_trans; [|exact Ho]. unfold owes.
    pose proof (msum_lookup_le (fun _ rb => mget (fr_rewards rb) (t_reward (f_terms f))) (fs_farmers c) a) as E1. rewrite Ha in E1. cbn [contrib] in E1.
    pose proof (msum_lookup_le (fun _ g => farm_owes (t_reward (f_terms f)) g) (fs_farms c) fid) as E2. rewrite Hf in E2. cbn [contrib] in E2.
    unfold farm_owes in E2 at 1. rewrite String.eqb_refl in E2. unfold rewards_sum, farms_owe.
    assert (am <= d_undist (f_dist f) + d_unclaimed (f_dist f)).
    { etransitivity; [exact Hq|]. destruct A6 as [(-> & _)|(_ & -> & _)]; lia. }
    lia. }
  assert (Hbal2 : forall g, t_reward (f_terms f) = g -> mget (fr_rewards r) g + am < W128) by (intros g <-; exact Hbal).
  assert (Hclaim : exists f2, (if 0 <? am then
      u ← csub (d_unclaimed (f_dist f1)) am; cl ← cadd W128 (f_claimed f1) am;
      Some (f_set_claimed (f_set_dist f1 (d_set_unclaimed (f_dist f1) u)) cl) else Some f1) = Some f2).
  { destruct (0 <? am); [|eauto]. rewrite csub_intro by done. cbn [mbind option_bind]. rewrite cadd_intro by lia. cbn [mbind option_bind]. eauto. }
  destruct Hclaim as [f2 ->]. cbn [mbind option_bind]. unfold set_rps. cbn [fs_set_farms fs_farmers fs_rps]. rewrite Ha. cbn [mbind option_bind].
  assert (Hcnt : exists n, match fs_rps c !! (a, fid) with Some _ => Some (fr_count r) | None => cadd W32 (fr_count r) 1 end = Some n).
  { destruct (fs_rps c !! (a, fid)); [eauto|]. rewrite cadd_intro by done. eauto. }
  destruct Hcnt as [n ->]. cbn [mbind option_bind fs_set_rps fs_set_farmers fs_farmers]. destruct (0 <? am); [|eauto].
  rewrite lookup_insert. cbn [mbind option_bind]. unfold fr_add_reward. cbn [fr_set_count fr_rewards].
  rewrite cadd_intro by exact Hbal. cbn [mbind option_bind]. eauto.
Qed.

Definition fitc (c : FState) : Prop := forall fid f, fs_farms c !! fid = Some f -> fits f.
(** The counter of a farmer is the number of their records. *)
Definition counted (a : AccountId) (c : FState) : Prop :=
  match fs_farmers c !! a with Some r => fr_count r = records c a | None => records c a = 0 end.
Definition pres (c c' : FState) : Prop := (fitc c -> fitc c') /\ forall a, counted a c -> counted a c'.
Lemma pres_refl c : pres c c. Proof. split; auto. Qed.
Lemma pres_trans c1 c2 c3 : pres c1 c2 -> pres c2 c3 -> pres c1 c3.
Proof. intros [A1 A2] [B1 B2]. split; auto. Qed.

Definition cnts (c : FState) : gmap AccountId N := fr_count <$> fs_farmers c.
Lemma counted_cnts a c : counted a c <-> match cnts c !! a with Some n => n = records c a | None => records c a = 0 end.
Proof. unfold counted, cnts. rewrite lookup_fmap. now destruct (fs_farmers c !! a). Qed.
Lemma pres_ext c c' : cnts c' = cnts c -> fs_rps c' = fs_rps c -> fs_farms c' = fs_farms c -> pres c c'.
Proof.
  intros E1 E2 E3. split; [unfold fitc; now rewrite E3|]. intros a. rewrite !counted_cnts. unfold records. now rewrite E1, E2.
Qed.
Lemma cnts_upd c c' a r r' : fs_farmers c !! a = Some r -> fs_farmers c' = <[a := r']> (fs_farmers c) -> fr_count r' = fr_count r -> cnts c' = cnts c.
Proof. intros Hr E1 E2. unfold cnts. rewrite E1, fmap_insert, E2. apply insert_id. now rewrite lookup_fmap, Hr. Qed.

Lemma pres_claim_from_farm now c a S fid c' : claim_from_farm now c a S fid = Some c' -> pres c c'.
Proof.
  intros H. split.
  - intros Hf. apply claim_from_farm_Some in H as (r & f & f1 & am & r' & _ & Hf0 & Hd & _ & _ & Hle & -> & _).
    intros fid' f'. cbn [fs_farms]. destruct (decide (fid = fid')) as [<-|Hne]; [|rewrite lookup_insert_ne by done; apply Hf].
    rewrite lookup_insert. intros [= <-]. apply fits_claim; [|done]. eapply fits_distribute; eauto.
  - intros b Hb. apply claim_from_farm_count in H as (r & r' & Hr & E1 & E2 & _ & v & E3). unfold counted in *. rewrite E1. unfold records in *. rewrite E3.
    pose proof (msum_insert (fun k (_ : N) => if String.eqb (fst k) b then 1 else 0) (fs_rps c) (a, fid) v) as E. cbn [fst] in E.
    destruct (decide (a = b)) as [<-|Hne].
    + rewrite lookup_insert. rewrite Hr in Hb. rewrite String.eqb_refl in E.
      destruct (fs_rps c !! (a, fid)); cbn [contrib fst] in E; [rewrite String.eqb_refl in E|]; lia.
    + rewrite lookup_insert_ne by done. apply String.eqb_neq in Hne. rewrite Hne in E.
      assert (E' : contrib (fun k (_ : N) => if String.eqb (fst k) b then 1 else 0) (a, fid) (fs_rps c !! (a, fid)) = 0)
        by (destruct (fs_rps c !! (a, fid)); cbn [contrib fst]; [now rewrite Hne|done]).
      rewrite E' in E. replace (msum _ (<[(a, fid) := v]> (fs_rps c))) with (msum (fun k (_ : N) => if String.eqb (fst k) b then 1 else 0) (fs_rps c)) by lia.
      exact Hb.
Qed.
Lemma pres_claim_from_farms now a S l : forall c c', claim_from_farms now c a S l = Some c' -> pres c c'.
Proof.
  induction l as [|fid l IH]; intros c c' H; cbn [claim_from_farms] in H; [injection H as <-; apply pres_refl|].
  destruct (claim_from_farm now c a S fid) as [c1|] eqn:H1; [|discriminate]. cbn [mbind option_bind] in H.
  eapply pres_trans; [eapply pres_claim_from_farm; eauto|eauto].
Qed.
Lemma pres_claim_by_seed now c a s c' : claim_by_seed now c a s = Some c' -> pres c c'.
Proof.
  unfold claim_by_seed. intros H. destruct (fs_farmers c !! a); [|discriminate]. cbn [mbind option_bind] in H.
  destruct (fs_seeds c !! s); [eapply pres_claim_from_farms; eauto|injection H as <-; apply pres_refl].
Qed.
Lemma pres_claim_by_farm now c a fid c' : claim_by_farm now c a fid = Some c' -> pres c c'.
Proof.
  unfold claim_by_farm. intros H. destruct (fs_farmers c !! a); [|discriminate]. cbn [mbind option_bind] in H.
  destruct (fs_seeds c !! _), (fs_farms c !! fid); try (injection H as <-; apply pres_refl). eapply pres_claim_from_farm; eauto.
Qed.
Lemma pres_remove_rps c a fid c' : remove_rps c a fid = Some c' -> pres c c'.
Proof.
  unfold remove_rps. intros H. destruct (fs_farmers c !! a) as [r|] eqn:Hr; [|discriminate]. cbn [mbind option_bind] in H.
  destruct (fs_rps c !! (a, fid)) as [v|] eqn:Hv; [|injection H as <-; apply pres_refl].
  destruct (csub (fr_count r) 1) as [n|] eqn:Hn; [|discriminate]. cbn [mbind option_bind] in H. injection H as <-. apply csub_Some in Hn as [-> Hn].
  split; [done|]. intros b Hb. unfold counted, records in *. cbn [fs_set_rps fs_set_farmers fs_farmers fs_rps].
  pose proof (msum_delete (fun k (_ : N) => if String.eqb (fst k) b then 1 else 0) (fs_rps c) (a, fid) v Hv) as E. cbn [fst] in E.
  destruct (decide (a = b)) as [<-|Hne].
  - rewrite lookup_insert. rewrite Hr in Hb. rewrite String.eqb_refl in E. cbn [fr_set_count fr_count]. lia.
  - rewrite lookup_insert_ne by done. apply String.eqb_neq in Hne. rewrite Hne in E.
    replace (msum _ (delete (a, fid) (fs_rps c))) with (msum (fun k (_ : N) => if String.eqb (fst k) b then 1 else 0) (fs_rps c)) by lia. exact Hb.
Qed.
Lemma pres_remove_rps_all a l : forall c c', remove_rps_all c a l = Some c' -> pres c c'.
Proof.
  induction l as [|fid l IH]; intros c c' H; cbn [remove_rps_all] in H; [injection H as <-; apply pres_refl|].
  destruct (remove_rps c a fid) as [c1|] eqn:H1; [|discriminate]. cbn [mbind option_bind] in H.
  eapply pres_trans; [eapply pres_remove_rps; eauto|eauto].
Qed.
Lemma pres_seed_deposit now c s a am c' : seed_deposit now c s a am = Some c' -> pres c c'.
Proof.
  intros H. unfold seed_deposit in H.
  destruct (claim_by_seed now c a s) as [c1|] eqn:Hc; [|discriminate]. cbn [mbind option_bind] in H.
  destruct (fs_seeds c1 !! s) as [sd|]; [|discriminate]. cbn [mbind option_bind] in H.
  destruct (cadd _ _ _) as [v|]; [|discriminate]. cbn [mbind option_bind fs_set_seeds fs_farmers] in H.
  destruct (fs_farmers c1 !! a) as [r|] eqn:Hr; [|discriminate]. cbn [mbind option_bind] in H.
  destruct (fr_add_seed r s am) as [r'|] eqn:Hs; [|discriminate]. cbn [mbind option_bind] in H. injection H as <-.
  eapply pres_trans; [eapply pres_claim_by_seed; eauto|]. apply pres_ext; [|done|done]. eapply cnts_upd; [exact Hr|reflexivity|].
  unfold fr_add_seed in Hs. destruct (0 <? am); inv; subst; done.
Qed.
Lemma pres_seed_withdraw now c s a am c' : seed_withdraw now c s a am = Some c' -> pres c c'.
Proof.
  intros H. unfold seed_withdraw in H.
  destruct (claim_by_seed now c a s) as [c1|] eqn:Hc; [|discriminate]. cbn [mbind option_bind] in H.
  destruct (fs_seeds c1 !! s) as [sd|]; [|discriminate]. cbn [mbind option_bind] in H.
  destruct (fs_farmers c1 !! a) as [r|] eqn:Hr; [|discriminate]. cbn [mbind option_bind] in H.
  destruct (fr_sub_seed r s am) as [[r' remain]|] eqn:Hsub; [|discriminate]. cbn [mbind option_bind] in H.
  destruct (csub _ _) as [v|]; [|discriminate]. cbn [mbind option_bind] in H.
  set (c2 := fs_set_seeds (fs_set_farmers c1 _) _) in H.
  assert (pres c c2).
  { eapply pres_trans; [eapply pres_claim_by_seed; eauto|]. apply pres_ext; [|done|done]. eapply cnts_upd; [exact Hr|reflexivity|].
    unfold fr_sub_seed in Hsub. inv. subst. done. }
  destruct (remain =? 0); [|now injection H as <-]. eapply pres_trans; [eassumption|eapply pres_remove_rps_all; eauto].
Qed.
Lemma pres_farms c c' :
  fs_farmers c' = fs_farmers c -> fs_rps c' = fs_rps c ->
  (forall fid f, fs_farms c' !! fid = Some f -> fitc c -> fits f) -> pres c c'.
Proof.
  intros E1 E2 Hf. split; [intros Hc fid f H; eauto|]. intros a. unfold counted, records. now rewrite E1, E2.
Qed.
Lemma pres_remove_farm now c fid c' b : internal_remove_farm now c fid = Some (c', b) -> pres c c'.
Proof.
  unfold internal_remove_farm. intros H. destruct (fs_seeds c !! fst fid) as [sd|]; [|inv; subst; apply pres_refl].
  destruct (fs_farms c !! fid) as [f|]; [|inv; subst; apply pres_refl].
  destruct (can_be_removed _ _ _) as [[|]|]; [| |discriminate]; cbn [mbind option_bind] in H; [|inv; subst; apply pres_refl].
  destruct (move_to_clear _ _ _) as [f'|]; [|discriminate]. cbn [mbind option_bind] in H. injection H as <- _. apply pres_farms; [done|done|].
  intros fid' g. cbn [fs_set_seeds fs_set_outdated fs_set_farms fs_farms]. intros Hg Hc. apply lookup_delete_Some in Hg as [_ Hg]. eauto.
Qed.
Lemma pres_register c a am c' : register_account c a am = Some c' -> pres c c'.
Proof.
  unfold register_account. intros H. destruct (fs_farmers c !! a) as [r|] eqn:Hr; inv; subst.
  - apply pres_ext; [|done|done]. eapply cnts_upd; [exact Hr|reflexivity|done].
  - split; [done|]. intros b Hb. unfold counted, records in *. cbn [fs_set_count fs_set_farmers fs_farmers fs_rps].
    destruct (decide (a = b)) as [<-|Hne]; [rewrite lookup_insert; rewrite Hr in Hb; now rewrite Hb|now rewrite lookup_insert_ne].
Qed.
Lemma pres_storage_deposit c a att ro c' : storage_deposit c a att ro = Some c' -> pres c c'.
Proof.
  unfold storage_deposit. intros H. destruct (fs_running c); [|discriminate]. cbn [ensure mbind option_bind] in H.
  destruct (farmer_storage c a) as [locked dep]. destruct (dep =? 0); inv; eapply pres_register; eauto.
Qed.

Definition leaves (x : fcall) : bool := match x with CStorageUnregister _ => true | _ => false end.
Lemma pres_call now c a x c' p : fcall_exec now c a x = Some (c', p) -> leaves x = false -> pres c c'.
Proof.
  intros H Hx. destruct x; try discriminate Hx; cbn [fcall_exec] in H.
  - unfold create_simple_farm, internal_add_farm in H. inv. subst. apply pres_farms; [done|done|].
    intros fid f. cbn [fs_set_farms fs_farms]. intros Hf Hc. apply lookup_insert_Some in Hf as [[_ <-]|[_ Hf]]; [apply fits_new|exact (Hc _ _ Hf)].
  - unfold set_owner in H. inv. subst. now apply pres_ext.
  - unfold force_clean_farm in H. inv. subst. eapply pres_remove_farm; eauto.
  - unfold modify_seed_min_deposit in H. inv. subst. now apply pres_ext.
  - unfold set_running in H. inv. subst. now apply pres_ext.
  - unfold set_running in H. inv. subst. now apply pres_ext.
  - destruct (storage_deposit c a0 attached registration_only) as [c1|] eqn:Hs; [|discriminate]. injection H as <- _. eapply pres_storage_deposit; eauto.
  - destruct (storage_withdraw c a attached amount) as [[c1 n]|] eqn:Hs; [|discriminate]. injection H as <- _.
    apply storage_withdraw_book in Hs as (r & Hr & _ & _ & _ & _ & ->). apply pres_ext; [|done|done]. eapply cnts_upd; [exact Hr|reflexivity|done].
  - unfold claim_reward_by_farm in H. inv. subst. eapply pres_claim_by_farm; eauto.
  - unfold claim_reward_by_seed in H. inv. subst. eapply pres_claim_by_seed; eauto.
  - unfold remove_user_rps_by_farm in H. inv. case_bool_decide; inv; subst; [apply pres_refl|]. eapply pres_remove_rps; eauto.
  - unfold withdraw_seed in H. inv. subst. eapply pres_seed_withdraw; eauto.
  - destruct (withdraw_reward _ _ _ _ _) as [[c1 sent]|] eqn:Hw; [|discriminate]. cbn [mbind option_bind] in H. injection H as <- _.
    apply withdraw_reward_Some in Hw as (r & r' & Hr & Hs & _ & _ & ->). apply pres_ext; [|done|done]. eapply cnts_upd; [exact Hr|reflexivity|].
    unfold fr_sub_reward in Hs. destruct (fr_rewards r !! token); [|discriminate]. cbn [mbind option_bind] in Hs. inv. destruct (_ =? 0); inv; subst; done.
Qed.
Lemma pres_token now c token a am msg c' : ft_on_transfer now c token a am msg = Some c' -> pres c c'.
Proof.
  unfold ft_on_transfer. intros H. destruct msg as [fid|].
  - destruct (fs_running c); [|discriminate]. cbn [ensure mbind option_bind] in H.
    destruct (fs_farms c !! fid) as [f|] eqn:Hf; [|discriminate]. cbn [mbind option_bind] in H.
    destruct (String.eqb _ _); [|discriminate]. cbn [ensure mbind option_bind] in H.
    destruct (farm_add_reward now f am) as [[f'|]|] eqn:Ha; [| |discriminate]; cbn [mbind option_bind] in H; [|discriminate].
    inv. subst. apply pres_farms; [done|done|]. intros fid' g. cbn [fs_set_info fs_set_farms fs_farms]. intros Hg Hc.
    apply lookup_insert_Some in Hg as [[_ <-]|[_ Hg]]; [|exact (Hc _ _ Hg)]. eapply fits_add_reward; [exact (Hc _ _ Hf)|exact Ha].
  - inv. subst. eapply pres_seed_deposit; eauto.
Qed.
Lemma step_pres w e w' : fstep w e = Some w' ->
  match e with EvCall _ _ x => leaves x = false | _ => True end -> pres (w_c w) (w_c w').
Proof.
  intros H Hx. destruct e as [now a x|now token a am msg|token am|i ok|now i].
  - apply fstep_call in H as (_ & p & H). eapply pres_call; eauto.
  - cbn [fstep] in H. destruct (w_tick w now); [|discriminate]. cbn [mbind option_bind] in H.
    destruct (ft_on_transfer now (w_c w) token a am msg) as [c'|] eqn:Hc; [|discriminate]. cbn [mbind option_bind] in H.
    injection H as <-. eapply pres_token; eauto.
  - cbn [fstep] in H. injection H as <-. apply pres_refl.
  - cbn [fstep] in H. destruct (w_pend w !! i) as [p|]; [|discriminate]. cbn [mbind option_bind] in H. destruct (pend_res p); [discriminate|].
    destruct (if ok then _ else _); [|discriminate]. cbn [mbind option_bind] in H. injection H as <-. apply pres_refl.
  - cbn [fstep] in H. destruct (w_tick w now); [|discriminate]. cbn [mbind option_bind] in H.
    destruct (w_pend w !! i) as [p|]; [|discriminate]. cbn [mbind option_bind] in H.
    destruct (pend_res p) as [[|]|]; [| |discriminate]; injection H as <-; [apply pres_refl|]. cbn [w_c].
    destruct (callback_restore now (w_c w) p) as [c'|] eqn:Hcb; [|apply pres_refl]. cbn [default Datatypes.id].
    destruct p as [t b m res|s' b m res]; cbn in Hcb.
    + apply restore_reward_Some in Hcb as (r & Hr & ->). apply pres_ext; [|done|done]. eapply cnts_upd; [exact Hr|reflexivity|done].
    + eapply pres_seed_deposit; eauto.
Qed.
Lemma step_leaves w now b att w' a :
  fstep w (EvCall now b (CStorageUnregister att)) = Some w' ->
  (fitc (w_c w) -> fitc (w_c w')) /\ (b <> a -> counted a (w_c w) -> counted a (w_c w')).
Proof.
  intros H. apply fstep_call in H as (_ & p & H). cbn [fcall_exec] in H.
  destruct (storage_unregister (w_c w) b att) as [[c1 n]|] eqn:Hs; [|discriminate]. injection H as <- _.
  apply storage_unregister_book in Hs as (-> & _ & [(Hn' & -> & ->)|(r & Hr' & -> & _ & _ & Hc & ->)]); [done|].
  split; [done|]. intros Hne Ha. unfold counted, records in *. cbn [fs_set_count fs_set_farmers fs_farmers fs_rps]. now rewrite lookup_delete_ne.
Qed.

Lemma fitc_reachable w : freachable w -> fitc (w_c w).
Proof.
  intros (owner & es & H). assert (H0 : fitc (w_c (fw_new owner))) by (intros fid f; cbn; rewrite lookup_empty; discriminate).
  induction H as [|w e w1 es w2 Hs _ IH]; [done|]. apply IH. destruct e as [now b x| | | |]; try (apply (step_pres _ _ _ Hs I), H0).
  destruct (leaves x) eqn:Hx; [|apply (step_pres _ _ _ Hs Hx), H0]. destruct x; try discriminate Hx. apply (step_leaves _ _ _ _ _ b Hs), H0.
Qed.
Lemma counted_history owner es w a : frun (fw_new owner) es w -> stayed a es -> counted a (w_c w).
Proof.
  intros H. assert (H0 : counted a (w_c (fw_new owner))).
  { unfold counted, records. cbn [fw_new w_c fs_new fs_farmers fs_rps]. rewrite lookup_empty. apply msum_empty. }
  induction H as [|w e w1 es w2 Hs _ IH]; [done|]. intros Hst. apply IH.
  - specialize (Hst e ltac:(left)). destruct e as [now b x| | | |]; try (apply (step_pres _ _ _ Hs I), H0).
    destruct (leaves x) eqn:Hx; [|apply (step_pres _ _ _ Hs Hx), H0]. destruct x; try discriminate Hx. now apply (step_leaves _ _ _ _ _ a Hs).
  - intros e' He'. apply Hst. now right.
Qed.

(** ** Claims, stakes and withdrawals *)
(** NEAR that pays for one more record of a farm and one more reward. *)
Definition claim_price : N := (4 + MAX_ACCOUNT_LENGTH + 16 + (4 + 1 + 2 * MAX_ACCOUNT_LENGTH + 32)) * BYTE_COST.

Lemma claim_from_farms_defined now a s l : forall c r,
  finv now c -> fitc c -> now < W32 * 10 ^ 9 -> fs_farmers c !! a = Some r -> NoDup l ->
  (forall fid, fid ∈ l -> fst fid = s /\ exists f, fs_farms c !! fid = Some f /\ sane (f_terms f) /\ owes c (t_reward (f_terms f)) < W128) ->
  fr_count r + N.of_nat (length l) < W32 ->
  (0 < stake_of c a s \/ forall fid, fid ∈ l -> fs_rps c !! (a, fid) = None) ->
  exists c' r', claim_from_farms now c a (seed_total c s) l = Some c' /\ fs_farmers c' !! a = Some r' /\
    fr_seeds r' = fr_seeds r /\ fr_amount r' = fr_amount r /\
    fr_storage_usage r' <= fr_storage_usage r + N.of_nat (length l) * claim_price.
Proof.
  induction l as [|fid l IH]; intros c r Hi Hf Hn Ha Hnd Hl Hc Hs; cbn [claim_from_farms].
  - exists c, r. split_and!; auto. lia.
  - apply NoDup_cons in Hnd as [Hnin Hnd]. destruct (Hl fid ltac:(left)) as (E & f & Hfl & Hsn & Hto). cbn [length] in Hc.
    destruct (claim_from_farm_defined now c a fid r f Hi Hn Ha Hfl (Hf _ _ Hfl) Hsn) as [c1 H1]; [lia|done| |].
    { rewrite E. destruct Hs as [Hs|Hs]; [now left|right; apply Hs; left]. }
    destruct (finv_claim_from_farm _ _ _ _ _ Hi H1) as (Hi1 & Ho1).
    pose proof (claim_from_farm_frame _ _ _ _ _ _ H1) as (_ & Es & _ & _ & _ & _ & _ & _ & _ & Hft & _).
    pose proof (pres_claim_from_farm _ _ _ _ _ _ H1) as [Hf1 _]. specialize (Hf1 Hf).
    destruct (claim_from_farm_count _ _ _ _ _ _ H1) as (r0 & r1 & Hr0 & E1 & E2 & (E3 & E4 & E5) & v & E6).
    rewrite Ha in Hr0. injection Hr0 as <-.
    assert (Hr1 : fs_farmers c1 !! a = Some r1) by (rewrite E1; apply lookup_insert).
    assert (Htot : seed_total c1 s = seed_total c s) by (unfold seed_total; now rewrite Es).
    rewrite E in H1. rewrite H1. cbn [mbind option_bind].
    destruct (IH c1 r1 Hi1 Hf1 Hn Hr1 Hnd) as (c' & r' & G1 & G2 & G3 & G4 & G5).
    + intros fid' Hin. destruct (Hl fid' ltac:(now right)) as (E' & f' & Hf' & Hs' & Ht'). split; [done|].
      destruct (Hft _ _ Hf') as (f2 & Hf2 & Et & _). exists f2. rewrite Et. split_and!; auto. now rewrite Ho1.
    + destruct (fs_rps c !! (a, fid)); lia.
    + destruct Hs as [Hs|Hs].
      * left. rewrite (stake_of_Some _ _ _ _ Hr1), E3, <- (stake_of_Some _ _ _ _ Ha). done.
      * right. intros fid' Hin. rewrite E6, lookup_insert_ne; [apply Hs; now right|]. intros [= ->]. done.
    + rewrite Htot in G1. exists c', r'. split_and!; try congruence.
      etransitivity; [exact G5|].
      assert (fr_storage_usage r1 <= fr_storage_usage r + claim_price).
      { unfold fr_storage_usage, claim_price. rewrite E3, E2. rewrite <- N.mul_add_distr_r. apply N.mul_le_mono_r.
        unfold MAX_ACCOUNT_LENGTH, MIN_FARMER_LENGTH. clear -E5. destruct (fs_rps c !! (a, fid)); lia. }
      cbn [length]. rewrite Nat2N.inj_succ, N.mul_succ_l. lia.
Qed.

Lemma claim_by_seed_defined w now a s r :
  freachable w -> in_time w now -> fs_farmers (w_c w) !! a = Some r -> sane_farms (w_c w) s -> sane_tokens w s ->
  fr_count r + farms_of (w_c w) s < W32 -> ready (w_c w) a s ->
  exists c' r', claim_by_seed now (w_c w) a s = Some c' /\ fs_farmers c' !! a = Some r' /\
    fr_seeds r' = fr_seeds r /\ fr_amount r' = fr_amount r /\
    fr_storage_usage r' <= fr_storage_usage r + farms_of (w_c w) s * claim_price.
Proof.
  intros Hw [Hn1 Hn2] Ha Hs1 Hs2 Hc Hrd. pose proof (fitc_reachable _ Hw) as Hfit.
  apply winv_reachable in Hw as (Hi & Hh & _). apply (finv_mono _ now) in Hi; [|done].
  unfold claim_by_seed. rewrite Ha. cbn [mbind option_bind]. unfold farms_of in *.
  destruct (fs_seeds (w_c w) !! s) as [sd|] eqn:Hsd.
  2:{ exists (w_c w), r. split_and!; auto. lia. }
  replace (s_amount sd) with (seed_total (w_c w) s) by (unfold seed_total; now rewrite Hsd).
  replace (size (s_farms sd)) with (length (elements (s_farms sd))) in * by done.
  apply claim_from_farms_defined; auto.
  - apply NoDup_elements.
  - intros fid Hin. apply elem_of_elements in Hin. pose proof Hi as (_ & H2 & _). destruct (H2 _ _ _ Hsd Hin) as (E & _ & f & Hf).
    split; [done|]. exists f. split; [done|]. split; [eapply Hs1; eauto|].
    eapply N.le_lt_trans; [|eapply Hs2; eauto]. specialize (Hh (t_reward (f_terms f))). lia.
  - destruct Hrd as [Hrd|Hrd]; [now left|right]. intros fid Hin. apply elem_of_elements in Hin. pose proof Hi as (_ & H2 & _).
    destruct (H2 _ _ _ Hsd Hin) as (E & _). auto.
Qed.

Lemma entries_records c a l : NoDup l -> entries_for c a l <= records c a.
Proof.
  unfold entries_for, records. generalize (fs_rps c). clear c. induction l as [|fid l IH]; intros m Hnd; [cbn; lia|].
  apply NoDup_cons in Hnd as [Hnin Hnd]. rewrite filter_cons. destruct (m !! (a, fid)) as [v|] eqn:Hv.
  - rewrite decide_True by eauto. cbn [length]. rewrite Nat2N.inj_succ.
    pose proof (msum_delete (fun k (_ : N) => if String.eqb (fst k) a then 1 else 0) m (a, fid) v Hv) as E. cbn [fst] in E. rewrite String.eqb_refl in E.
    specialize (IH (delete (a, fid) m) Hnd).
    assert (El : length (filter (fun fid0 => is_Some (delete (a, fid) m !! (a, fid0))) l) = length (filter (fun fid0 => is_Some (m !! (a, fid0))) l)).
    { f_equal. clear -Hnin. induction l as [|x l IHl]; [done|]. apply not_elem_of_cons in Hnin as [Hx Hl].
      rewrite !filter_cons. rewrite lookup_delete_ne by congruence. case_decide; now rewrite IHl. }
    rewrite El in IH. lia.
  - rewrite decide_False by (intros [? ?]; congruence). auto.
Qed.
Lemma in_time_tick w now : in_time w now -> w_tick w now = Some tt.
Proof. intros [H1 H2]. apply w_tick_intro; [done|]. etransitivity; [exact H2|reflexivity]. Qed.

(** Whoever stayed registered can withdraw any part of a stake, at any time. *)
Theorem C48_withdrawable owner es w now a s amount :
  frun (fw_new owner) es w -> stayed a es -> fs_running (w_c w) = true -> in_time w now ->
  sane_farms (w_c w) s -> sane_tokens w s -> records (w_c w) a + farms_of (w_c w) s < W32 ->
  0 < amount -> amount <= stake_of (w_c w) a s ->
  exists w', fstep w (EvCall now a (CWithdrawSeed 1 s amount)) = Some w' /\
    stake_of (w_c w') a s = stake_of (w_c w) a s - amount /\ w_pend w' !! w_next w = Some (PSeed s a amount None).
Proof.
  intros Hrun Hst Hon Ht Hs1 Hs2 Hc Hpos Hle. assert (Hw : freachable w) by (exists owner, es; done).
  pose proof (counted_history _ _ _ _ Hrun Hst) as Hk.
  destruct (fs_farmers (w_c w) !! a) as [r|] eqn:Ha; [|unfold stake_of in Hle; rewrite Ha in Hle; lia].
  assert (Er : fr_count r = records (w_c w) a) by (unfold counted in Hk; now rewrite Ha in Hk).
  destruct (claim_by_seed_defined w now a s r Hw Ht Ha Hs1 Hs2) as (c1 & r1 & Hcl & Hr1 & _); [now rewrite Er|left; lia|].
  destruct (C48_withdrawable_after_claim_partial w now a s amount c1 r1 Hw (proj1 Ht) Hon Hcl Hr1 Hpos Hle) as (c' & Hc' & Hst').
  { intros _ sd Hsd. etransitivity; [apply entries_records, NoDup_elements|].
    destruct (pres_claim_by_seed _ _ _ _ _ Hcl) as [_ Hp]. specialize (Hp a Hk). unfold counted in Hp. rewrite Hr1 in Hp. lia. }
  eexists. split.
  - cbn [fstep]. rewrite (in_time_tick _ _ Ht). cbn [mbind option_bind fcall_exec]. rewrite Hc'. cbn [mbind option_bind]. reflexivity.
  - split; [exact Hst'|]. cbn [w_pend]. apply lookup_insert.
Qed.
Print Assumptions C48_withdrawable.

(** ** C76: claims and stakes succeed *)
Theorem C76_claim w now a s r :
  freachable w -> fs_running (w_c w) = true -> in_time w now -> fs_farmers (w_c w) !! a = Some r ->
  sane_farms (w_c w) s -> sane_tokens w s -> fr_count r + farms_of (w_c w) s < W32 -> ready (w_c w) a s ->
  fr_storage_usage r + farms_of (w_c w) s * claim_price <= fr_amount r ->
  exists w', fstep w (EvCall now a (CClaimSeed s)) = Some w'.
Proof.
  intros Hw Hon Ht Ha Hs1 Hs2 Hc Hrd Hst.
  destruct (claim_by_seed_defined w now a s r Hw Ht Ha Hs1 Hs2 Hc Hrd) as (c1 & r1 & Hcl & Hr1 & _ & Ea & Hu).
  assert (Hpos : 0 < fr_amount r) by (pose proof (usage_pos r); lia).
  eexists. cbn [fstep]. rewrite (in_time_tick _ _ Ht). cbn [mbind option_bind fcall_exec]. unfold claim_reward_by_seed. rewrite Hon, Hcl.
  cbn [ensure mbind option_bind]. unfold assert_storage_usage, farmer_storage. rewrite Hr1.
  rewrite ensure_intro; [cbn [mbind option_bind]; reflexivity|]. rewrite Ea. apply andb_true_intro. split; [now apply N.ltb_lt|apply N.leb_le; lia].
Qed.
Print Assumptions C76_claim.

Theorem C76_stake w now a s r sd amount :
  freachable w -> fs_running (w_c w) = true -> in_time w now -> fs_farmers (w_c w) !! a = Some r -> fs_seeds (w_c w) !! s = Some sd ->
  sane_farms (w_c w) s -> sane_tokens w s -> fr_count r + farms_of (w_c w) s < W32 -> ready (w_c w) a s ->
  s_min sd <= amount -> 0 < amount -> s_amount sd + amount < W128 ->
  fr_storage_usage r + farms_of (w_c w) s * claim_price + (4 + MAX_ACCOUNT_LENGTH + 16) * BYTE_COST <= fr_amount r ->
  exists w', fstep w (EvToken now s a amount None) = Some w' /\ stake_of (w_c w') a s = stake_of (w_c w) a s + amount.
Proof.
  intros Hw Hon Ht Ha Hsd Hs1 Hs2 Hc Hrd Hmin Hpos Htot Hst.
  destruct (claim_by_seed_defined w now a s r Hw Ht Ha Hs1 Hs2 Hc Hrd) as (c1 & r1 & Hcl & Hr1 & Es & Ea & Hu).
  pose proof Hw as Hinv. apply winv_reachable in Hinv as (Hi & _). apply (finv_mono _ now) in Hi; [|apply Ht].
  destruct (finv_claim_by_seed _ _ _ _ _ Hi Hcl) as (_ & _ & (_ & Esd & _) & _ & _).
  assert (Hsd1 : fs_seeds c1 !! s = Some sd) by now rewrite Esd.
  assert (Hle : mget (fr_seeds r) s <= s_amount sd).
  { destruct Hi as (_ & _ & _ & H4 & _). specialize (H4 s). unfold seed_total in H4. rewrite Hsd in H4. rewrite H4. unfold stakes_sum.
    pose proof (msum_lookup_le (fun _ rb => mget (fr_seeds rb) s) (fs_farmers (w_c w)) a) as E. rewrite Ha in E. exact E. }
  rewrite (stake_of_Some _ _ _ _ Ha).
  set (r2 := fr_set_seeds r1 (<[s := amount + mget (fr_seeds r) s]> (fr_seeds r))).
  set (c2 := fs_set_farmers (fs_set_seeds c1 (<[s := s_set_amount sd (s_amount sd + amount)]> (fs_seeds c1))) (<[a := r2]> (fs_farmers c1))).
  assert (Hdep : seed_deposit now (w_c w) s a amount = Some c2).
  { unfold seed_deposit. rewrite Hcl. cbn [mbind option_bind]. rewrite Hsd1. cbn [mbind option_bind]. rewrite cadd_intro by done.
    cbn [mbind option_bind fs_set_seeds fs_farmers]. rewrite Hr1. cbn [mbind option_bind]. unfold fr_add_seed. rewrite Es.
    rewrite (proj2 (N.ltb_lt 0 amount) Hpos). rewrite cadd_intro by lia. cbn [mbind option_bind]. reflexivity. }
  assert (Hpos2 : 0 < fr_amount r) by (pose proof (usage_pos r); lia).
  assert (Hu2 : fr_storage_usage r2 <= fr_storage_usage r1 + (4 + MAX_ACCOUNT_LENGTH + 16) * BYTE_COST).
  { unfold fr_storage_usage, r2. cbn [fr_set_seeds fr_rewards fr_seeds fr_count]. rewrite Es, <- N.mul_add_distr_r. apply N.mul_le_mono_r.
    rewrite map_size_insert. unfold MAX_ACCOUNT_LENGTH, MIN_FARMER_LENGTH. destruct (fr_seeds r !! s); unfold Datatypes.id; lia. }
  eexists. split.
  - cbn [fstep]. rewrite (in_time_tick _ _ Ht). cbn [mbind option_bind]. unfold ft_on_transfer. rewrite Hon, Hsd. cbn [ensure mbind option_bind].
    rewrite (proj2 (N.leb_le _ _) Hmin). cbn [ensure mbind option_bind]. rewrite Hdep. cbn [mbind option_bind].
    unfold assert_storage_usage, farmer_storage. cbn [c2 fs_set_farmers fs_farmers]. rewrite lookup_insert.
    rewrite ensure_intro; [cbn [mbind option_bind]; reflexivity|].
    replace (fr_amount r2) with (fr_amount r) by (cbn; congruence). apply andb_true_intro. split; [now apply N.ltb_lt|apply N.leb_le; lia].
  - unfold stake_of. cbn [w_c c2 fs_set_farmers fs_farmers]. rewrite lookup_insert. unfold r2. cbn [fr_set_seeds fr_seeds]. rewrite mget_insert. lia.
Qed.
Print Assumptions C76_stake.

(** ** A farm whose sessions take no time locks all stakes of its seed for good *)
Definition stuck (now : N) (c : FState) (fid : FarmId) : Prop :=
  exists f, fs_farms c !! fid = Some f /\ f_status f = Running /\ t_interval (f_terms f) = 0 /\ to_nano (t_start (f_terms f)) <= now.
Definition quiet (fid : FarmId) (c c' : FState) : Prop :=
  fs_farms c' !! fid = fs_farms c !! fid /\ forall a, stake_of c' a (fst fid) = stake_of c a (fst fid).
Lemma quiet_refl fid c : quiet fid c c. Proof. done. Qed.
Lemma quiet_trans fid c1 c2 c3 : quiet fid c1 c2 -> quiet fid c2 c3 -> quiet fid c1 c3.
Proof. intros [A1 A2] [B1 B2]. split; [congruence|]. intros a. now rewrite B2. Qed.
Lemma quiet_ext fid c c' : fs_farms c' !! fid = fs_farms c !! fid -> fs_farmers c' = fs_farmers c -> quiet fid c c'.
Proof. intros E1 E2. split; [done|]. intros a. unfold stake_of. now rewrite E2. Qed.
Lemma quiet_upd fid c c' a r r' : fs_farmers c !! a = Some r -> fs_farms c' = fs_farms c -> fs_farmers c' = <[a := r']> (fs_farmers c) ->
  mget (fr_seeds r') (fst fid) = mget (fr_seeds r) (fst fid) -> quiet fid c c'.
Proof. intros Hr E1 E2 E3. split; [now rewrite E1|]. intros b. eapply stake_of_frame; eauto. Qed.
Lemma stuck_mono now now' c c' fid : now <= now' -> fs_farms c' !! fid = fs_farms c !! fid -> stuck now c fid -> stuck now' c' fid.
Proof. intros Hn E (f & Hf & H1 & H2 & H3). exists f. rewrite E. split_and!; auto. lia. Qed.
Lemma stuck_try now f S : f_status f = Running -> t_interval (f_terms f) = 0 -> to_nano (t_start (f_terms f)) <= now -> try_distribute now f S = None.
Proof.
  intros H1 H2 H3. unfold try_distribute. rewrite H1, H2. destruct (N.ltb_spec now (to_nano (t_start (f_terms f)))); [lia|].
  destruct (csub _ _); reflexivity.
Qed.
Lemma stuck_claim now c a S fid : stuck now c fid -> claim_from_farm now c a S fid = None.
Proof.
  intros (f & Hf & H1 & H2 & H3). unfold claim_from_farm. destruct (fs_farmers c !! a); [|done]. cbn [mbind option_bind]. rewrite Hf. cbn [mbind option_bind].
  unfold claim_user_reward, distribute. now rewrite stuck_try.
Qed.
Lemma quiet_claim now c a S fid fid' c' : claim_from_farm now c a S fid' = Some c' -> stuck now c fid -> quiet fid c c'.
Proof.
  intros H Hl. destruct (decide (fid' = fid)) as [->|Hne]; [now rewrite stuck_claim in H|].
  apply claim_from_farm_Some in H as (r & f & f1 & am & r' & Ha & _ & _ & _ & _ & _ & -> & Hs & _). split.
  - cbn [fs_farms]. now rewrite lookup_insert_ne.
  - intros b. eapply stake_of_frame; [exact Ha|reflexivity|now rewrite Hs].
Qed.
Lemma quiet_claims now a S fid l : forall c c', claim_from_farms now c a S l = Some c' -> stuck now c fid -> fid ∉ l /\ quiet fid c c'.
Proof.
  induction l as [|x l IH]; intros c c' H Hl; cbn [claim_from_farms] in H; [injection H as <-; split; [apply not_elem_of_nil|apply quiet_refl]|].
  destruct (claim_from_farm now c a S x) as [c1|] eqn:H1; [|discriminate]. cbn [mbind option_bind] in H.
  pose proof (quiet_claim _ _ _ _ _ _ _ H1 Hl) as Hq. destruct (IH c1 c' H) as [Hn Hq2].
  { eapply stuck_mono; [reflexivity|apply Hq|done]. }
  split; [|eapply quiet_trans; eauto]. apply not_elem_of_cons. split; [|done]. intros <-. now rewrite stuck_claim in H1.
Qed.
Lemma quiet_claim_by_seed now c a s fid c' : finv now c -> claim_by_seed now c a s = Some c' -> stuck now c fid -> s <> fst fid /\ quiet fid c c'.
Proof.
  intros (H1 & _) H Hl. pose proof Hl as (f & Hf & _). destruct (H1 _ _ Hf) as (_ & _ & _ & (sd & Hsd & Hin) & _).
  unfold claim_by_seed in H. destruct (fs_farmers c !! a); [|discriminate]. cbn [mbind option_bind] in H.
  destruct (decide (s = fst fid)) as [->|Hne].
  - rewrite Hsd in H. apply (quiet_claims _ _ _ fid) in H as [Hn _]; [|done]. exfalso. apply Hn. now apply elem_of_elements.
  - split; [done|]. destruct (fs_seeds c !! s); [|injection H as <-; apply quiet_refl]. now apply (quiet_claims _ _ _ fid) in H as [_ Hq].
Qed.
Lemma quiet_claim_by_farm now c a fid' fid c' : claim_by_farm now c a fid' = Some c' -> stuck now c fid -> quiet fid c c'.
Proof.
  intros H Hl. unfold claim_by_farm in H. destruct (fs_farmers c !! a); [|discriminate]. cbn [mbind option_bind] in H.
  destruct (fs_seeds c !! _), (fs_farms c !! fid'); try (injection H as <-; apply quiet_refl). eapply quiet_claim; eauto.
Qed.
Lemma quiet_remove_rps c a fid' fid c' : remove_rps c a fid' = Some c' -> quiet fid c c'.
Proof.
  intros H. split; [now destruct (remove_rps_farms _ _ _ _ H) as [-> _]|]. intros b. eapply remove_rps_stake; eauto.
Qed.
Lemma quiet_remove_rps_all a fid l : forall c c', remove_rps_all c a l = Some c' -> quiet fid c c'.
Proof.
  induction l as [|x l IH]; intros c c' H; cbn [remove_rps_all] in H; [injection H as <-; apply quiet_refl|].
  destruct (remove_rps c a x) as [c1|] eqn:H1; [|discriminate]. cbn [mbind option_bind] in H.
  eapply quiet_trans; [eapply quiet_remove_rps; eauto|eauto].
Qed.
Lemma quiet_seed_deposit now c s a am fid c' : finv now c -> seed_deposit now c s a am = Some c' -> stuck now c fid -> quiet fid c c'.
Proof.
  intros Hi H Hl. unfold seed_deposit in H.
  destruct (claim_by_seed now c a s) as [c1|] eqn:Hc; [|discriminate]. cbn [mbind option_bind] in H.
  destruct (quiet_claim_by_seed _ _ _ _ _ _ Hi Hc Hl) as [Hne Hq].
  destruct (fs_seeds c1 !! s) as [sd|]; [|discriminate]. cbn [mbind option_bind] in H.
  destruct (cadd _ _ _) as [v|]; [|discriminate]. cbn [mbind option_bind fs_set_seeds fs_farmers] in H.
  destruct (fs_farmers c1 !! a) as [r|] eqn:Hr; [|discriminate]. cbn [mbind option_bind] in H.
  destruct (fr_add_seed r s am) as [r'|] eqn:Hs; [|discriminate]. cbn [mbind option_bind] in H. injection H as <-.
  eapply quiet_trans; [exact Hq|]. eapply quiet_upd; [exact Hr|done|reflexivity|].
  unfold fr_add_seed in Hs. destruct (0 <? am); inv; subst; [|done]. cbn [fr_set_seeds fr_seeds]. now rewrite mget_insert_ne.
Qed.
Lemma quiet_seed_withdraw now c s a am fid c' : finv now c -> seed_withdraw now c s a am = Some c' -> stuck now c fid -> s <> fst fid /\ quiet fid c c'.
Proof.
  intros Hi H Hl. unfold seed_withdraw in H.
  destruct (claim_by_seed now c a s) as [c1|] eqn:Hc; [|discriminate]. cbn [mbind option_bind] in H.
  destruct (quiet_claim_by_seed _ _ _ _ _ _ Hi Hc Hl) as [Hne Hq]. split; [done|].
  destruct (fs_seeds c1 !! s) as [sd|]; [|discriminate]. cbn [mbind option_bind] in H.
  destruct (fs_farmers c1 !! a) as [r|] eqn:Hr; [|discriminate]. cbn [mbind option_bind] in H.
  destruct (fr_sub_seed r s am) as [[r' remain]|] eqn:Hsub; [|discriminate]. cbn [mbind option_bind] in H.
  destruct (csub _ _) as [v|]; [|discriminate]. cbn [mbind option_bind] in H.
  set (c2 := fs_set_seeds (fs_set_farmers c1 _) _) in H.
  assert (quiet fid c c2).
  { eapply quiet_trans; [exact Hq|]. eapply quiet_upd; [exact Hr|done|reflexivity|].
    unfold fr_sub_seed in Hsub. inv. subst. cbn [fr_set_seeds fr_seeds]. destruct (0 <? _); [now rewrite mget_insert_ne|now rewrite mget_delete_ne]. }
  destruct (remain =? 0); [|now injection H as <-]. eapply quiet_trans; [eassumption|eapply quiet_remove_rps_all; eauto].
Qed.
Lemma quiet_remove_farm now c fid' fid c' b : internal_remove_farm now c fid' = Some (c', b) -> stuck now c fid -> quiet fid c c'.
Proof.
  unfold internal_remove_farm. intros H (f0 & Hf0 & S1 & S2 & S3). destruct (fs_seeds c !! fst fid') as [sd|]; [|inv; subst; apply quiet_refl].
  destruct (fs_farms c !! fid') as [f|] eqn:Hf; [|inv; subst; apply quiet_refl].
  destruct (decide (fid' = fid)) as [->|Hne].
  - rewrite Hf0 in Hf. injection Hf as <-. unfold can_be_removed in H. rewrite S1, stuck_try in H by done. discriminate.
  - destruct (can_be_removed _ _ _) as [[|]|]; [| |discriminate]; cbn [mbind option_bind] in H; [|inv; subst; apply quiet_refl].
    destruct (move_to_clear _ _ _) as [f'|]; [|discriminate]. cbn [mbind option_bind] in H. injection H as <- _. apply quiet_ext; [|done].
    cbn [fs_set_seeds fs_set_outdated fs_set_farms fs_farms]. now rewrite lookup_delete_ne.
Qed.
Lemma quiet_register c a am fid c' : register_account c a am = Some c' -> quiet fid c c'.
Proof.
  unfold register_account. intros H. destruct (fs_farmers c !! a) as [r|] eqn:Hr; inv; subst.
  - eapply quiet_upd; [exact Hr|done|reflexivity|done].
  - split; [done|]. intros b. unfold stake_of. cbn [fs_set_count fs_set_farmers fs_farmers].
    destruct (decide (a = b)) as [<-|Hne]; [rewrite lookup_insert, Hr; cbn; unfold mget; now rewrite lookup_empty|now rewrite lookup_insert_ne].
Qed.
Lemma quiet_call now c a x fid c' p : finv now c -> fcall_exec now c a x = Some (c', p) -> stuck now c fid -> quiet fid c c'.
Proof.
  intros Hi H Hl. destruct x; cbn [fcall_exec] in H.
  - unfold create_simple_farm, internal_add_farm in H. inv. subst. apply quiet_ext; [|done]. cbn [fs_set_farms fs_farms].
    apply lookup_insert_ne. intros E. destruct Hi as (K1 & K2 & _). pose proof Hl as (f & Hf & _).
    destruct (K1 _ _ Hf) as (_ & _ & _ & (sd & Hsd & Hin) & _). destruct (K2 _ _ _ Hsd Hin) as (_ & Hlt & _).
    rewrite <- E in Hsd, Hlt. cbn [fst snd] in *. rewrite Hsd in Hlt. cbn in Hlt. lia.
  - unfold set_owner in H. inv. subst. now apply quiet_ext.
  - unfold force_clean_farm in H. inv. subst. eapply quiet_remove_farm; eauto.
  - unfold modify_seed_min_deposit in H. inv. subst. now apply quiet_ext.
  - unfold set_running in H. inv. subst. now apply quiet_ext.
  - unfold set_running in H. inv. subst. now apply quiet_ext.
  - destruct (storage_deposit c a0 attached registration_only) as [c1|] eqn:Hs; [|discriminate]. injection H as <- _.
    unfold storage_deposit in Hs. destruct (fs_running c); [|discriminate]. cbn [ensure mbind option_bind] in Hs.
    destruct (farmer_storage c a0) as [locked dep]. destruct (dep =? 0); inv; eapply quiet_register; eauto.
  - destruct (storage_withdraw c a attached amount) as [[c1 n]|] eqn:Hs; [|discriminate]. injection H as <- _.
    apply storage_withdraw_book in Hs as (r & Hr & _ & _ & _ & _ & ->). eapply quiet_upd; [exact Hr|done|reflexivity|done].
  - destruct (storage_unregister c a attached) as [[c1 n]|] eqn:Hs; [|discriminate]. injection H as <- _.
    apply storage_unregister_book in Hs as (-> & _ & [(Hn' & -> & ->)|(r & Hr' & -> & _ & He & Hc & ->)]); [apply quiet_refl|].
    split; [done|]. intros b. unfold stake_of. cbn [fs_set_count fs_set_farmers fs_farmers].
    destruct (decide (a = b)) as [<-|Hne]; [rewrite lookup_delete, Hr', He; unfold mget; now rewrite lookup_empty|now rewrite lookup_delete_ne].
  - unfold claim_reward_by_farm in H. inv. subst. eapply quiet_claim_by_farm; eauto.
  - unfold claim_reward_by_seed in H. inv. subst. eapply quiet_claim_by_seed; eauto.
  - unfold remove_user_rps_by_farm in H. inv. case_bool_decide; inv; subst; [apply quiet_refl|]. eapply quiet_remove_rps; eauto.
  - unfold withdraw_seed in H. inv. subst. eapply quiet_seed_withdraw; eauto.
  - destruct (withdraw_reward _ _ _ _ _) as [[c1 sent]|] eqn:Hw; [|discriminate]. cbn [mbind option_bind] in H. injection H as <- _.
    apply withdraw_reward_Some in Hw as (r & r' & Hr & Hs & _ & _ & ->). eapply quiet_upd; [exact Hr|done|reflexivity|].
    unfold fr_sub_reward in Hs. destruct (fr_rewards r !! token); [|discriminate]. cbn [mbind option_bind] in Hs. inv. destruct (_ =? 0); inv; subst; done.
Qed.
Lemma quiet_token now c token a am msg fid c' : finv now c -> ft_on_transfer now c token a am msg = Some c' -> stuck now c fid -> quiet fid c c'.
Proof.
  unfold ft_on_transfer. intros Hi H Hl. destruct msg as [fid'|].
  - destruct (fs_running c); [|discriminate]. cbn [ensure mbind option_bind] in H.
    destruct (fs_farms c !! fid') as [f|] eqn:Hf; [|discriminate]. cbn [mbind option_bind] in H.
    destruct (String.eqb _ _); [|discriminate]. cbn [ensure mbind option_bind] in H.
    destruct (decide (fid' = fid)) as [->|Hne].
    + destruct Hl as (f0 & Hf0 & S1 & S2 & S3). rewrite Hf0 in Hf. injection Hf as <-.
      unfold farm_add_reward in H. rewrite S1, stuck_try in H by done. discriminate.
    + inv. subst. apply quiet_ext; [|done]. cbn [fs_set_info fs_set_farms fs_farms]. now rewrite lookup_insert_ne.
  - inv. subst. eapply quiet_seed_deposit; eauto.
Qed.
Lemma quiet_step w e w' fid : winv w -> fstep w e = Some w' -> stuck (w_now w) (w_c w) fid -> w_now w <= w_now w' /\ quiet fid (w_c w) (w_c w').
Proof.
  intros Hw H Hl.
  assert (Hl' : forall now, w_now w <= now -> stuck now (w_c w) fid) by (intros now Hn; eapply stuck_mono; [exact Hn|done|done]).
  destruct e as [now a x|now token a am msg|token am|i ok|now i]; cbn [fstep] in H.
  - destruct (w_tick w now) eqn:Ht; [|discriminate]. cbn [mbind option_bind] in H. apply w_tick_Some in Ht as [Hn _].
    destruct (fcall_exec now (w_c w) a x) as [[c' p]|] eqn:Hc; [|discriminate]. cbn [mbind option_bind] in H.
    assert (quiet fid (w_c w) c') by (eapply quiet_call; [eapply step_finv; eauto|exact Hc|auto]). destruct p; injection H as <-; done.
  - destruct (w_tick w now) eqn:Ht; [|discriminate]. cbn [mbind option_bind] in H. apply w_tick_Some in Ht as [Hn _].
    destruct (ft_on_transfer now (w_c w) token a am msg) as [c'|] eqn:Hc; [|discriminate]. cbn [mbind option_bind] in H.
    injection H as <-. split; [done|]. eapply quiet_token; [eapply step_finv; eauto|exact Hc|auto].
  - injection H as <-. split; [cbn; lia|apply quiet_refl].
  - destruct (w_pend w !! i) as [p|]; [|discriminate]. cbn [mbind option_bind] in H. destruct (pend_res p); [discriminate|].
    destruct (if ok then _ else _); [|discriminate]. cbn [mbind option_bind] in H. injection H as <-. split; [cbn; lia|apply quiet_refl].
  - destruct (w_tick w now) eqn:Ht; [|discriminate]. cbn [mbind option_bind] in H. apply w_tick_Some in Ht as [Hn _].
    destruct (w_pend w !! i) as [p|]; [|discriminate]. cbn [mbind option_bind] in H.
    destruct (pend_res p) as [[|]|]; [| |discriminate]; injection H as <-; (split; [done|]); [apply quiet_refl|]. cbn [w_c].
    destruct (callback_restore now (w_c w) p) as [c'|] eqn:Hcb; [|apply quiet_refl]. cbn [default Datatypes.id].
    destruct p as [t b m res|s' b m res]; cbn in Hcb.
    + apply restore_reward_Some in Hcb as (r & Hr & ->). eapply quiet_upd; [exact Hr|done|reflexivity|done].
    + eapply quiet_seed_deposit; [eapply step_finv; eauto|exact Hcb|auto].
Qed.

(** Whatever happens later, no stake of the seed changes any more and no withdrawal of one goes through. *)
Theorem C76_no_interval_locks w fid es w' :
  freachable w -> stuck (w_now w) (w_c w) fid -> frun w es w' ->
  stuck (w_now w') (w_c w') fid /\ (forall a, stake_of (w_c w') a (fst fid) = stake_of (w_c w) a (fst fid)) /\
  forall now a att amount, fstep w' (EvCall now a (CWithdrawSeed att (fst fid) amount)) = None.
Proof.
  intros Hr Hl Hrun. apply winv_reachable in Hr.
  assert (Hgo : winv w' /\ stuck (w_now w') (w_c w') fid /\ forall a, stake_of (w_c w') a (fst fid) = stake_of (w_c w) a (fst fid)).
  { induction Hrun as [w|w e w1 es w2 Hs _ IH]; [done|]. destruct (quiet_step _ _ _ _ Hr Hs Hl) as (Hn & Q1 & Q2).
    destruct IH as (I1 & I2 & I3); [eapply winv_step; eauto|eapply stuck_mono; eauto|]. split_and!; auto. intros a. now rewrite I3. }
  destruct Hgo as (Hw' & Hl' & Hst). split; [done|]. split; [done|]. intros now a att amount.
  destruct (fstep w' _) as [w2|] eqn:Hs; [exfalso|done]. apply fstep_call in Hs as (Hn & p & H). cbn [fcall_exec] in H. unfold withdraw_seed in H. inv. subst.
  match goal with H : seed_withdraw _ _ _ _ _ = Some _ |- _ => apply (quiet_seed_withdraw _ _ _ _ _ fid) in H as [Hne _] end;
    [now apply Hne|eapply step_finv; eauto|]. eapply stuck_mono; [exact Hn|done|done].
Qed.
Print Assumptions C76_no_interval_locks.

(** The owner can create such a farm by mistake, and a sponsor start it with a single unit: 1000 staked tokens are locked. *)
Definition ex_zero : list fevent :=
  ex_prefix ++
  [EvCall (sec 300) "owner" (CCreateFarm (10 ^ 24) 200 (mkTerms "lp" "rew2" 0 1000 0) None);
   EvToken (sec 310) "rew2" "sponsor" 1 (Some ("lp"%string, 1))].
Theorem C76_sane_terms_refuted :
  exists w, freachable w /\ fs_running (w_c w) = true /\ stake_of (w_c w) "alice" "lp" = 300 /\ stake_of (w_c w) "bob" "lp" = 700 /\
    stuck (w_now w) (w_c w) ("lp"%string, 1).
Proof.
  exists (ex_world ex_zero). split; [apply ex_reachable, is_Some_bool; vm_compute; reflexivity|]. do 3 (split; [vm_compute; reflexivity|]).
  eexists. split; [vm_compute; reflexivity|]. split; [vm_compute; reflexivity|]. split; [vm_compute; reflexivity|]. vm_compute. discriminate.
Qed.
Print Assumptions C76_sane_terms_refuted.

(** A decidable form of the hypotheses, for the cases below. *)
Definition sane_farms_b (c : FState) (s : SeedId) : bool :=
  forallb (fun kf => negb (String.eqb (fst (fst kf)) s) || ((0 <? t_interval (f_terms (snd kf))) && (t_rps (f_terms (snd kf)) <? 2 ^ 96)))
    (map_to_list (fs_farms c)).
Lemma sane_farms_ok c s : sane_farms_b c s = true -> sane_farms c s.
Proof.
  intros H fid f Hf Hs. unfold sane_farms_b in H. rewrite forallb_forall in H.
  specialize (H (fid, f)). cbn [fst snd] in H. rewrite Hs, String.eqb_refl in H. cbn [negb orb] in H.
  apply elem_of_map_to_list, elem_of_list_In in Hf. specialize (H Hf). apply andb_true_iff in H as [E1 E2].
  split; [now apply N.ltb_lt|now apply N.ltb_lt].
Qed.
Definition sane_tokens_b (w : FWorld) (s : SeedId) : bool :=
  forallb (fun kf => negb (String.eqb (fst (fst kf)) s) || (mget (w_hold w) (t_reward (f_terms (snd kf))) <? W128)) (map_to_list (fs_farms (w_c w))).
Lemma sane_tokens_ok w s : sane_tokens_b w s = true -> sane_tokens w s.
Proof.
  intros H fid f Hf Hs. unfold sane_tokens_b in H. rewrite forallb_forall in H.
  specialize (H (fid, f)). cbn [fst snd] in H. rewrite Hs, String.eqb_refl in H. cbn [negb orb] in H.
  apply elem_of_map_to_list, elem_of_list_In in Hf. now apply N.ltb_lt, (H Hf).
Qed.

(** Alice's 300 can be withdrawn at any later time of the running example, and both can claim and stake more. *)
Example C48_withdrawable_case :
  exists w, frun (fw_new "owner") ex_prefix w /\ stayed "alice" ex_prefix /\ fs_running (w_c w) = true /\ in_time w (sec 305) /\
    sane_farms (w_c w) "lp" /\ sane_tokens w "lp" /\ records (w_c w) "alice" + farms_of (w_c w) "lp" < W32 /\
    stake_of (w_c w) "alice" "lp" = 300 /\ farms_of (w_c w) "lp" = 1.
Proof.
  exists (ex_world ex_prefix). split.
  { assert (H : is_Some (frun_exec (fw_new "owner") ex_prefix)) by (apply is_Some_bool; vm_compute; reflexivity).
    destruct H as [w Hw]. unfold ex_world. rewrite Hw. now apply frun_exec_run. }
  split. { intros e He. unfold ex_prefix in He. repeat (apply elem_of_cons in He as [->|He]; [exact I|]). now apply elem_of_nil in He. }
  split; [vm_compute; reflexivity|]. split; [split; vm_compute; [discriminate|reflexivity]|].
  split; [apply sane_farms_ok; vm_compute; reflexivity|]. split; [apply sane_tokens_ok; vm_compute; reflexivity|].
  split; [vm_compute; reflexivity|]. split; vm_compute; reflexivity.
Qed.
Example C76_claim_case :
  exists w r, freachable w /\ fs_running (w_c w) = true /\ in_time w (sec 305) /\ fs_farmers (w_c w) !! "bob"%string = Some r /\
    sane_farms (w_c w) "lp" /\ sane_tokens w "lp" /\ fr_count r + farms_of (w_c w) "lp" < W32 /\ ready (w_c w) "bob" "lp" /\
    fr_storage_usage r + farms_of (w_c w) "lp" * claim_price + (4 + MAX_ACCOUNT_LENGTH + 16) * BYTE_COST <= fr_amount r.
Proof.
  exists (ex_world ex_prefix), (default (mkFarmer 0 ∅ ∅ 0) (fs_farmers (w_c (ex_world ex_prefix)) !! "bob"%string)).
  split; [apply ex_reachable, is_Some_bool; vm_compute; reflexivity|].
  split; [vm_compute; reflexivity|]. split; [split; vm_compute; [discriminate|reflexivity]|]. split; [vm_compute; reflexivity|].
  split; [apply sane_farms_ok; vm_compute; reflexivity|]. split; [apply sane_tokens_ok; vm_compute; reflexivity|].
  split; [vm_compute; reflexivity|]. split; [left; vm_compute; reflexivity|]. vm_compute. discriminate.
Qed.

(** Whoever claimed without a stake can be kept from staking: the total of a farm starts anew when all stakes have left. *)
Definition ex_stale : list fevent :=
  ex_prefix ++
  [EvCall (sec 300) "carol" (CStorageDeposit "carol" (10 ^ 24) false);
   EvCall (sec 310) "carol" (CClaimSeed "lp");
   EvCall (sec 320) "alice" (CWithdrawSeed 1 "lp" 300);
   EvCall (sec 330) "bob" (CWithdrawSeed 1 "lp" 700);
   EvCall (sec 365) "alice" (CClaimSeed "lp")].
Theorem C76_ready_refuted :
  exists w r, freachable w /\ fs_running (w_c w) = true /\ in_time w (sec 370) /\ fs_farmers (w_c w) !! "carol"%string = Some r /\
    sane_farms (w_c w) "lp" /\ sane_tokens w "lp" /\ fr_count r = 1 /\
    fr_storage_usage r + farms_of (w_c w) "lp" * claim_price + (4 + MAX_ACCOUNT_LENGTH + 16) * BYTE_COST <= fr_amount r /\
    fstep w (EvToken (sec 370) "lp" "carol" 500 None) = None /\ fstep w (EvCall (sec 370) "carol" (CClaimSeed "lp")) = None /\
    is_Some (fstep w (EvToken (sec 370) "lp" "alice" 500 None)).
Proof.
  exists (ex_world ex_stale), (default (mkFarmer 0 ∅ ∅ 0) (fs_farmers (w_c (ex_world ex_stale)) !! "carol"%string)).
  split; [apply ex_reachable, is_Some_bool; vm_compute; reflexivity|].
  split; [vm_compute; reflexivity|]. split; [split; vm_compute; [discriminate|reflexivity]|]. split; [vm_compute; reflexivity|].
  split; [apply sane_farms_ok; vm_compute; reflexivity|]. split; [apply sane_tokens_ok; vm_compute; reflexivity|].
  split; [vm_compute; reflexivity|]. split; [vm_compute; discriminate|]. split; [vm_compute; reflexivity|]. split; [vm_compute; reflexivity|].
  apply is_Some_bool. vm_compute. reflexivity.
Qed.
Print Assumptions C76_ready_refuted.
