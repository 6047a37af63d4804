(** * Invariants of the farming contract *)
From Verif Require Import Base BaseLemmas Farming SpecFarming FarmingProofs.

(** ** Small facts about maps *)
Lemma mget_insert `{Countable K} (m : gmap K N) k v : mget (<[k := v]> m) k = v.
Proof. unfold mget. now rewrite lookup_insert. Qed.
Lemma mget_insert_ne `{Countable K} (m : gmap K N) k k' v : k <> k' -> mget (<[k := v]> m) k' = mget m k'.
Proof. intros. unfold mget. now rewrite lookup_insert_ne. Qed.
Lemma mget_delete `{Countable K} (m : gmap K N) k : mget (delete k m) k = 0.
Proof. unfold mget. now rewrite lookup_delete. Qed.
Lemma mget_delete_ne `{Countable K} (m : gmap K N) k k' : k <> k' -> mget (delete k m) k' = mget m k'.
Proof. intros. unfold mget. now rewrite lookup_delete_ne. Qed.

Lemma msum_insert_same {K V} `{Countable K} (g : K -> V -> N) (m : gmap K V) k x y :
  m !! k = Some y -> g k x = g k y -> msum g (<[k := x]> m) = msum g m.
Proof. intros Hk E. pose proof (msum_insert g m k x) as H1. rewrite Hk in H1. cbn [contrib] in H1. lia. Qed.
Lemma msum_insert_gen {K V} `{Countable K} (g : K -> V -> N) (m : gmap K V) k x y :
  m !! k = Some y -> msum g (<[k := x]> m) + g k y = msum g m + g k x.
Proof. intros Hk. pose proof (msum_insert g m k x) as H1. rewrite Hk in H1. exact H1. Qed.
Lemma msum_zero_inv {K V} `{Countable K} (g : K -> V -> N) (m : gmap K V) k x :
  msum g m = 0 -> m !! k = Some x -> g k x = 0.
Proof. intros Hz Hk. pose proof (msum_lookup_le g m k) as H1. rewrite Hk in H1. cbn [contrib] in H1. lia. Qed.

(** ** Shape of the state changes *)
Lemma claim_from_farm_Some now c a S fid c' :
  claim_from_farm now c a S fid = Some c' ->
  exists r f f1 am r',
    fs_farmers c !! a = Some r /\ fs_farms c !! fid = Some f /\ distribute now f S = Some f1 /\
    get_rps c a fid <= d_rps (f_dist f1) /\
    am = mget (fr_seeds r) (t_seed (f_terms f)) * (d_rps (f_dist f1) - get_rps c a fid) / DENOM /\
    am <= d_unclaimed (f_dist f1) /\
    c' = mkFState (fs_owner c) (fs_seeds c) (<[a := r']> (fs_farmers c))
           (<[(a, fid) := d_rps (f_dist f1)]> (fs_rps c))
           (<[fid := mkFarm (f_terms f1) (f_status f1)
                (mkDist (d_undist (f_dist f1)) (d_unclaimed (f_dist f1) - am) (d_rps (f_dist f1)) (d_rr (f_dist f1)))
                (f_reward f1) (f_claimed f1 + am) (f_benef f1)]> (fs_farms c))
           (fs_outdated c) (fs_count c) (fs_info c) (fs_running c) /\
    fr_seeds r' = fr_seeds r /\ fr_amount r' = fr_amount r /\
    (forall t, mget (fr_rewards r') t
       = mget (fr_rewards r) t + if String.eqb (t_reward (f_terms f)) t then am else 0).
Proof.
  unfold claim_from_farm. intros H.
  destruct (fs_farmers c !! a) as [r|] eqn:Hr; [|discriminate]. cbn [mbind option_bind] in H.
  destruct (fs_farms c !! fid) as [f|] eqn:Hf; [|discriminate]. cbn [mbind option_bind] in H.
  destruct (claim_user_reward _ _ _ _ _) as [[[f2 rps'] am]|] eqn:Hc; [|discriminate].
  apply claim_user_reward_Some in Hc as (f1 & Hd & Hru & Ham & Hle & -> & ->).
  unfold set_rps in H. cbn [mbind option_bind fs_set_farms fs_farmers fs_rps] in H. rewrite Hr in H.
  cbn [mbind option_bind] in H.
  match type of H with context [match fs_rps c !! (a, fid) with Some _ => ?x | None => ?y end] =>
    destruct (match fs_rps c !! (a, fid) with Some _ => x | None => y end) as [n|] eqn:Hn; [|discriminate] end.
  cbn [mbind option_bind fs_set_rps fs_set_farmers fs_set_farms fs_farmers fs_owner fs_seeds fs_rps fs_farms fs_outdated fs_count fs_info fs_running] in H.
  exists r, f, f1, am. rewrite lookup_insert in H. cbn [mbind option_bind] in H.
  destruct (N.ltb_spec 0 am) as [Hpos|Hpos]; inv; subst c'.
  - unfold fr_add_reward in *. inv. subst x.
    exists (fr_set_rewards (fr_set_count r n) (<[t_reward (f_terms f) := x0]> (fr_rewards r))).
    cbn [fr_set_rewards fr_set_count fr_rewards fr_seeds fr_amount] in *. split_and!; try done.
    + cbn. rewrite insert_insert. reflexivity.
    + intros t. subst x0.
      destruct (String.eqb_spec (t_reward (f_terms f)) t) as [<-|Hne].
      * rewrite mget_insert. done.
      * rewrite mget_insert_ne by done. lia.
  - exists (fr_set_count r n). split_and!; try done.
    intros t. cbn [fr_set_count fr_rewards]. replace am with 0 by lia. destruct (String.eqb _ _); lia.
Qed.

(** ** The contract invariant *)
(** what all farmers together could claim from a farm, times DENOM *)
Definition owed (c : FState) (fid : FarmId) (rps : N) : N :=
  msum (fun a r => mget (fr_seeds r) (fst fid) * (rps - get_rps c a fid)) (fs_farmers c).

Definition finv_farms (now : N) (c : FState) : Prop :=
  forall fid f, fs_farms c !! fid = Some f ->
    farm_wf now f /\ t_seed (f_terms f) = fst fid /\ f_status f <> Cleared /\
    (exists sd, fs_seeds c !! fst fid = Some sd /\ fid ∈ s_farms sd) /\
    owed c fid (d_rps (f_dist f)) <= d_unclaimed (f_dist f) * DENOM /\
    (forall a, 0 < stake_of c a (fst fid) -> get_rps c a fid <= d_rps (f_dist f)).
Definition finv_seeds (c : FState) : Prop :=
  forall s sd fid, fs_seeds c !! s = Some sd -> fid ∈ s_farms sd ->
    fst fid = s /\ snd fid < s_next sd /\ is_Some (fs_farms c !! fid).
Definition finv_outdated (now : N) (c : FState) : Prop :=
  forall fid f, fs_outdated c !! fid = Some f ->
    farm_wf now f /\ f_status f = Cleared /\ fs_farms c !! fid = None /\
    exists sd, fs_seeds c !! fst fid = Some sd /\ snd fid < s_next sd.
Definition finv_stakes (c : FState) : Prop := forall s, seed_total c s = stakes_sum c s.

(** rps entries only exist for farms that have been created *)
Definition finv_rps (c : FState) : Prop := forall a fid v, fs_rps c !! (a, fid) = Some v ->
  exists sd, fs_seeds c !! fst fid = Some sd /\ snd fid < s_next sd.

Definition finv (now : N) (c : FState) : Prop :=
  finv_farms now c /\ finv_seeds c /\ finv_outdated now c /\ finv_stakes c /\ finv_rps c.

(** everything the contract owes in token [t], not counting transfers in flight *)
Definition owes (c : FState) (t : string) : N := seed_total c t + rewards_sum c t + farms_owe c t.

Lemma finv_mono now now' c : now <= now' -> finv now c -> finv now' c.
Proof.
  intros Hn (H1 & H2 & H3 & H4 & H5). split_and!; auto.
  - intros fid f Hf. destruct (H1 fid f Hf) as (Hw & ?). split; [|done]. now apply (farm_wf_mono now).
  - intros fid f Hf. destruct (H3 fid f Hf) as (Hw & ?). split; [|done]. now apply (farm_wf_mono now).
Qed.

Lemma stake_of_Some c a s r : fs_farmers c !! a = Some r -> stake_of c a s = mget (fr_seeds r) s.
Proof. unfold stake_of. now intros ->. Qed.

(** the distribution of new rewards keeps all claims covered *)
Lemma owed_distribute now c fid f S f1 :
  S = stakes_sum c (fst fid) -> distribute now f S = Some f1 ->
  owed c fid (d_rps (f_dist f)) <= d_unclaimed (f_dist f) * DENOM ->
  owed c fid (d_rps (f_dist f1)) <= d_unclaimed (f_dist f1) * DENOM.
Proof.
  intros HS Hd Ho.
  apply distribute_Some in Hd as (_ & _ & _ & added & _ & _ & _ & _ & _ & [(Hu & _ & _ & [(Ha & Hr)|(Hpos & Hr)])|(HS0 & Hu & Hr & _)]).
  - rewrite Hr, Hu, Ha. lia.
  - rewrite Hu, Hr. set (q := added * DENOM / S) in *.
    assert (Hle : owed c fid (d_rps (f_dist f) + q) <= owed c fid (d_rps (f_dist f)) + q * stakes_sum c (fst fid)).
    { unfold owed, stakes_sum. rewrite <- msum_mul, <- msum_add. apply msum_le. intros a r _.
      generalize (mget (fr_seeds r) (fst fid)), (get_rps c a fid), (d_rps (f_dist f)). intros x y z. nia. }
    assert (q * S <= added * DENOM) by (apply div_mul_le; lia).
    rewrite <- HS in Hle. lia.
  - rewrite Hu, Hr. unfold owed. rewrite msum_zero; [lia|]. intros a r Ha.
    assert (mget (fr_seeds r) (fst fid) = 0) as ->; [|lia].
    apply (msum_zero_inv (fun _ r => mget (fr_seeds r) (fst fid)) (fs_farmers c) a); [|done].
    unfold stakes_sum in HS. congruence.
Qed.

(** [owed] only looks at stakes and at the rps entries of the farm *)
Lemma owed_frame c c' a r r' fid rps :
  fs_farmers c !! a = Some r -> fs_farmers c' = <[a := r']> (fs_farmers c) ->
  (forall b, mget (fs_rps c') (b, fid) = mget (fs_rps c) (b, fid)) ->
  mget (fr_seeds r') (fst fid) = mget (fr_seeds r) (fst fid) ->
  owed c' fid rps = owed c fid rps.
Proof.
  intros Ha Hf Hr Hs. unfold owed, get_rps. rewrite Hf.
  rewrite (msum_insert_same _ _ a r' r Ha).
  - apply msum_ext. intros b x _. now rewrite Hr.
  - now rewrite Hs.
Qed.

Lemma owed_claim c c' a r r' fid rps :
  fs_farmers c !! a = Some r -> fs_farmers c' = <[a := r']> (fs_farmers c) ->
  fs_rps c' = <[(a, fid) := rps]> (fs_rps c) ->
  mget (fr_seeds r') (fst fid) = mget (fr_seeds r) (fst fid) ->
  owed c' fid rps + mget (fr_seeds r) (fst fid) * (rps - get_rps c a fid) = owed c fid rps.
Proof.
  intros Ha Hf Hr Hs. unfold owed, get_rps. rewrite Hf, Hr.
  rewrite (msum_insert_same _ _ a r' r Ha) by now rewrite Hs.
  set (g1 := fun a0 r0 => mget (fr_seeds r0) (fst fid) * (rps - mget (<[(a, fid):=rps]> (fs_rps c)) (a0, fid))).
  set (g2 := fun a0 r0 => mget (fr_seeds r0) (fst fid) * (rps - mget (fs_rps c) (a0, fid))).
  pose proof (msum_delete g1 _ a r Ha) as E1. pose proof (msum_delete g2 _ a r Ha) as E2.
  assert (E3 : msum g1 (delete a (fs_farmers c)) = msum g2 (delete a (fs_farmers c))).
  { apply msum_ext. intros b x Hb. subst g1 g2. cbn beta. rewrite mget_insert_ne; [done|]. intros [= ->].
    rewrite lookup_delete in Hb. discriminate. }
  assert (E4 : g1 a r = 0). { subst g1. cbn beta. rewrite mget_insert. lia. }
  subst g2. cbn beta in *. lia.
Qed.

Lemma stakes_sum_frame c c' a r r' s :
  fs_farmers c !! a = Some r -> fs_farmers c' = <[a := r']> (fs_farmers c) ->
  mget (fr_seeds r') s = mget (fr_seeds r) s -> stakes_sum c' s = stakes_sum c s.
Proof. intros Ha Hf Hs. unfold stakes_sum. rewrite Hf. now apply (msum_insert_same _ _ a r' r Ha). Qed.

Lemma stake_of_frame c c' a r r' s b :
  fs_farmers c !! a = Some r -> fs_farmers c' = <[a := r']> (fs_farmers c) ->
  mget (fr_seeds r') s = mget (fr_seeds r) s -> stake_of c' b s = stake_of c b s.
Proof.
  intros Ha Hf Hs. unfold stake_of. rewrite Hf. destruct (decide (a = b)) as [<-|Hne].
  - now rewrite lookup_insert, Ha.
  - now rewrite lookup_insert_ne.
Qed.

(** ** Claims *)
Lemma finv_claim_from_farm now c a fid c' :
  finv now c -> claim_from_farm now c a (seed_total c (fst fid)) fid = Some c' ->
  finv now c' /\ (forall t, owes c' t = owes c t).
Proof.
  intros (H1 & H2 & H3 & H4 & H5) H.
  apply claim_from_farm_Some in H as (r & f & f1 & am & r' & Ha & Hf & Hd & Hru & Ham & Hle & -> & Hs & _ & Hrw).
  destruct (H1 fid f Hf) as (Hwf & Hseed & Hncl & (sd & Hsd & Hin) & Ho & Hst).
  pose proof (farm_wf_distribute now f _ f1 Hwf Hd) as Hwf1.
  pose proof (owed_distribute now c fid f _ f1 (H4 (fst fid)) Hd Ho) as Ho1.
  set (c' := mkFState _ _ _ _ _ _ _ _ _).
  pose proof (distribute_Some _ _ _ _ Hd) as (Ht & Hrw1 & Hs1 & added & A1 & A2 & A3 & A4 & A5 & A6).
  rewrite Hseed in Ham.
  split; [split_and!|].
  - (* farms *)
    intros fid' f' Hf'. subst c'. cbn [fs_farms] in Hf'.
    destruct (decide (fid = fid')) as [<-|Hne].
    + rewrite lookup_insert in Hf'. injection Hf' as <-.
      cbn [f_terms f_status f_dist d_rps d_unclaimed].
      split; [|split; [|split; [|split; [|split]]]].
      * destruct Hwf1 as (B1 & B2 & B3 & B4 & B5 & B6 & B7).
        unfold farm_wf; cbn. clear Ham. split_and!; auto; lia.
      * congruence.
      * intros E. rewrite E in *. destruct Hs1 as [Hs1|(_ & Hs1 & _)]; congruence.
      * exists sd. done.
      * set (c'' := mkFState _ _ _ _ _ _ _ _ _).
        assert (HH : owed c'' fid (d_rps (f_dist f1)) + mget (fr_seeds r) (fst fid) * (d_rps (f_dist f1) - get_rps c a fid)
                = owed c fid (d_rps (f_dist f1))).
        { apply (owed_claim c c'' a r r'); auto. now rewrite Hs. }
        assert (Hdm : am * DENOM <= mget (fr_seeds r) (fst fid) * (d_rps (f_dist f1) - get_rps c a fid)).
        { rewrite Ham. apply div_mul_le, DENOM_pos. }
        rewrite N.mul_sub_distr_r. clear Ham. lia.
      * intros b Hb. erewrite stake_of_frame in Hb; [|exact Ha|reflexivity|now rewrite Hs].
        unfold get_rps; cbn [fs_rps]. destruct (decide (a = b)) as [<-|Hab].
        -- rewrite mget_insert. done.
        -- rewrite mget_insert_ne by congruence.
           destruct A6 as [(_ & _ & _ & [(_ & Hr)|(_ & Hr)])|(HS0 & _ & _ & _)].
           ++ rewrite Hr. now apply Hst.
           ++ rewrite Hr. etransitivity; [now apply Hst|]. apply N.le_add_r.
           ++ exfalso. rewrite H4 in HS0. unfold stakes_sum in HS0. unfold stake_of in Hb.
              destruct (fs_farmers c !! b) as [rb|] eqn:Eb; [|lia].
              pose proof (msum_zero_inv _ _ _ _ HS0 Eb) as Hz. cbn in Hz. lia.
    + rewrite lookup_insert_ne in Hf' by done.
      destruct (H1 fid' f' Hf') as (B1 & B2 & B3 & B4 & B5 & B6). split_and!; auto.
      * erewrite owed_frame; [exact B5|exact Ha|reflexivity| |now rewrite Hs].
        intros b. cbn [fs_rps]. rewrite mget_insert_ne; congruence.
      * intros b Hb. erewrite stake_of_frame in Hb; [|exact Ha|reflexivity|now rewrite Hs].
        unfold get_rps; cbn [fs_rps]. rewrite mget_insert_ne by congruence. now apply B6.
  - intros s sd' fid' Hsd' Hin'. subst c'. cbn [fs_seeds fs_farms] in *.
    destruct (H2 s sd' fid' Hsd' Hin') as (B1 & B2 & B3). split_and!; auto.
    destruct (decide (fid = fid')) as [<-|Hne]; [rewrite lookup_insert; eauto|now rewrite lookup_insert_ne].
  - intros fid' f' Hf'. subst c'. cbn [fs_seeds fs_farms fs_outdated] in *.
    destruct (H3 fid' f' Hf') as (B1 & B2 & B3 & B4). split_and!; auto.
    rewrite lookup_insert_ne; [done|]. intros <-. congruence.
  - intros s. unfold seed_total. subst c'. cbn [fs_seeds].
    erewrite stakes_sum_frame; [apply H4|exact Ha|reflexivity|now rewrite Hs].
  - intros b fid' v Hv. subst c'. cbn [fs_seeds fs_rps] in *.
    destruct (decide ((a, fid) = (b, fid'))) as [E|Hne].
    + injection E as <- <-. exists sd. split; [done|]. now destruct (H2 _ _ _ Hsd Hin) as (_ & ? & _).
    + rewrite lookup_insert_ne in Hv by done. eauto.
  - intros t. unfold owes, seed_total, rewards_sum, farms_owe. subst c'. cbn [fs_seeds fs_farmers fs_farms fs_outdated].
    pose proof (msum_insert_gen (fun _ r => mget (fr_rewards r) t) (fs_farmers c) a r' r Ha) as E1.
    set (f2 := mkFarm _ _ _ _ _ _).
    pose proof (msum_insert_gen (fun _ f => farm_owes t f) (fs_farms c) fid f2 f Hf) as E2.
    cbn beta in E1, E2. rewrite Hrw in E1.
    unfold farm_owes in E2 at 2 4. subst f2. cbn [f_terms f_dist d_undist d_unclaimed f_benef] in E2.
    rewrite Ht in E2. rewrite Ht.
    assert (Hsum : d_undist (f_dist f1) + d_unclaimed (f_dist f1) + f_benef f1
              = d_undist (f_dist f) + d_unclaimed (f_dist f) + f_benef f).
    { destruct A6 as [(B1 & B2 & B3 & _)|(_ & B1 & _ & B2 & B3)]; lia. }
    clear Ham. destruct (String.eqb (t_reward (f_terms f)) t); lia.
Qed.

(** How a farm may change when [dep] reward is deposited *)
Definition farm_le (f f' : Farm) (dep : N) : Prop :=
  f_reward f' = f_reward f + dep /\ (status_rank (f_status f) <= status_rank (f_status f'))%nat /\
  t_seed (f_terms f') = t_seed (f_terms f) /\ t_reward (f_terms f') = t_reward (f_terms f) /\
  t_rps (f_terms f') = t_rps (f_terms f) /\ t_interval (f_terms f') = t_interval (f_terms f) /\
  (t_start (f_terms f) <> 0 \/ f_status f <> Created -> t_start (f_terms f') = t_start (f_terms f)) /\
  d_rr (f_dist f) <= d_rr (f_dist f') /\ f_claimed f <= f_claimed f' /\ f_benef f <= f_benef f' /\
  (f_status f = Ended \/ f_status f = Cleared -> dep = 0).

Lemma farm_le_refl f : farm_le f f 0.
Proof. unfold farm_le. split_and!; auto; lia. Qed.
Lemma farm_le_trans f1 f2 f3 d1 d2 : farm_le f1 f2 d1 -> farm_le f2 f3 d2 -> farm_le f1 f3 (d1 + d2).
Proof.
  intros (A1 & A2 & A3 & A4 & A5 & A6 & A7 & A8 & A9 & A10 & A11) (B1 & B2 & B3 & B4 & B5 & B6 & B7 & B8 & B9 & B10 & B11).
  unfold farm_le. split_and!; try congruence; try lia.
  - intros H. rewrite B7, A7; auto. destruct H as [H|H]; [left; rewrite A7; auto|].
    right. intros E. rewrite E in A2. destruct (f_status f1); cbn in A2; try lia. congruence.
  - intros H. rewrite A11, B11; auto. destruct (f_status f2), (f_status f1); cbn in A2; auto; try lia; destruct H; discriminate.
Qed.

Lemma farm_le_distribute now f S f1 : distribute now f S = Some f1 -> farm_le f f1 0.
Proof.
  intros H. apply distribute_Some in H as (Ht & Hr & Hs & added & A1 & A2 & A3 & A4 & A5 & A6).
  unfold farm_le. rewrite Ht, Hr. split_and!; auto; try lia.
  - destruct Hs as [->|(-> & -> & _)]; cbn; lia.
Qed.

Lemma farm_le_claimed f f1 d u x :
  farm_le f f1 d ->
  farm_le f (mkFarm (f_terms f1) (f_status f1) (mkDist (d_undist (f_dist f1)) u (d_rps (f_dist f1)) (d_rr (f_dist f1)))
                (f_reward f1) (f_claimed f1 + x) (f_benef f1)) d.
Proof. unfold farm_le. cbn. intros (A1 & A2 & A3 & A4 & A5 & A6 & A7 & A8 & A9 & A10 & A11). split_and!; auto. lia. Qed.

(** What claims leave alone *)
Definition claim_frame (c c' : FState) (a : AccountId) : Prop :=
  fs_owner c' = fs_owner c /\ fs_seeds c' = fs_seeds c /\ fs_outdated c' = fs_outdated c /\
  fs_count c' = fs_count c /\ fs_info c' = fs_info c /\ fs_running c' = fs_running c /\
  (forall b, b <> a -> fs_farmers c' !! b = fs_farmers c !! b) /\
  (forall b fid, b <> a -> fs_rps c' !! (b, fid) = fs_rps c !! (b, fid)) /\
  (forall r, fs_farmers c !! a = Some r -> exists r', fs_farmers c' !! a = Some r' /\
     fr_seeds r' = fr_seeds r /\ fr_amount r' = fr_amount r /\
     forall t, mget (fr_rewards r) t <= mget (fr_rewards r') t) /\
  (forall fid f, fs_farms c !! fid = Some f -> exists f', fs_farms c' !! fid = Some f' /\
     f_terms f' = f_terms f /\ farm_le f f' 0) /\
  (forall fid, fs_farms c !! fid = None -> fs_farms c' !! fid = None).

Lemma claim_frame_refl c a : claim_frame c c a.
Proof. unfold claim_frame. split_and!; eauto using farm_le_refl. Qed.
Lemma claim_frame_trans c1 c2 c3 a : claim_frame c1 c2 a -> claim_frame c2 c3 a -> claim_frame c1 c3 a.
Proof.
  intros (A1 & A2 & A3 & A4 & A5 & A6 & A7 & A8 & A9 & A10 & A11) (B1 & B2 & B3 & B4 & B5 & B6 & B7 & B8 & B9 & B10 & B11).
  unfold claim_frame. split_and!; try congruence.
  - intros b Hb. rewrite B7, A7; auto.
  - intros b fid Hb. rewrite B8, A8; auto.
  - intros r Hr. destruct (A9 r Hr) as (r1 & Hr1 & E1 & E2 & E2'). destruct (B9 r1 Hr1) as (r2 & Hr2 & E3 & E4 & E4').
    exists r2. split_and!; try congruence. intros t. etransitivity; eauto.
  - intros fid f Hf. destruct (A10 fid f Hf) as (f1 & Hf1 & E1 & E2). destruct (B10 fid f1 Hf1) as (f2 & Hf2 & E3 & E4).
    exists f2. split_and!; [congruence|congruence|]. exact (farm_le_trans _ _ _ 0 0 E2 E4).
  - auto.
Qed.

Lemma claim_from_farm_frame now c a S fid c' :
  claim_from_farm now c a S fid = Some c' -> claim_frame c c' a.
Proof.
  intros H. apply claim_from_farm_Some in H as (r & f & f1 & am & r' & Ha & Hf & Hd & Hru & Ham & Hle & -> & Hs & Ha' & Hrw).
  pose proof (farm_le_distribute _ _ _ _ Hd) as Hfl.
  apply distribute_Some in Hd as (Ht & Hrw1 & _).
  unfold claim_frame. cbn [fs_owner fs_seeds fs_farmers fs_rps fs_farms fs_outdated fs_count fs_info fs_running].
  split_and!; auto.
  - intros b Hb. rewrite lookup_insert_ne; congruence.
  - intros b fid' Hb. rewrite lookup_insert_ne; [done|]. congruence.
  - intros r0 Hr0. rewrite lookup_insert. exists r'. replace r0 with r by congruence. split_and!; auto.
    intros t. rewrite Hrw. apply N.le_add_r.
  - intros fid' f' Hf'. destruct (decide (fid = fid')) as [<-|Hne].
    + rewrite lookup_insert. eexists. split; [reflexivity|]. cbn [f_terms]. replace f' with f by congruence. split; [congruence|]. now apply farm_le_claimed.
    + rewrite lookup_insert_ne by done. exists f'. auto using farm_le_refl.
  - intros fid' Hf'. rewrite lookup_insert_ne; [done|]. congruence.
Qed.

(** a claim brings the user's rps up to date with the farm *)
Definition rps_current (c : FState) (a : AccountId) (fid : FarmId) : Prop :=
  forall f, fs_farms c !! fid = Some f -> get_rps c a fid = d_rps (f_dist f).

Lemma claim_from_farm_current now c a S fid c' :
  claim_from_farm now c a S fid = Some c' -> rps_current c' a fid.
Proof.
  intros H. apply claim_from_farm_Some in H as (r & f & f1 & am & r' & Ha & Hf & Hd & Hru & Ham & Hle & -> & _).
  intros f' Hf'. cbn [fs_farms] in Hf'. rewrite lookup_insert in Hf'. injection Hf' as <-.
  unfold get_rps. cbn. apply mget_insert.
Qed.
Lemma claim_from_farm_current_ne now c a S fid c' fid' :
  claim_from_farm now c a S fid = Some c' -> fid <> fid' -> rps_current c a fid' -> rps_current c' a fid'.
Proof.
  intros H Hne Hc. apply claim_from_farm_Some in H as (r & f & f1 & am & r' & Ha & Hf & Hd & Hru & Ham & Hle & -> & _).
  intros f' Hf'. cbn [fs_farms] in Hf'. rewrite lookup_insert_ne in Hf' by done.
  unfold get_rps. cbn [fs_rps]. rewrite mget_insert_ne by congruence. now apply Hc.
Qed.

Lemma finv_claim_from_farms now a s l : forall c c',
  finv now c -> claim_from_farms now c a (seed_total c s) l = Some c' ->
  (forall fid, fid ∈ l -> fst fid = s) -> NoDup l ->
  finv now c' /\ (forall t, owes c' t = owes c t) /\ claim_frame c c' a /\
  (forall fid, fid ∈ l -> rps_current c' a fid) /\
  (forall fid, fid ∉ l -> rps_current c a fid -> rps_current c' a fid).
Proof.
  induction l as [|fid l IH]; intros c c' Hi H Hs Hnd; cbn [claim_from_farms] in H.
  - injection H as <-. split_and!; auto using claim_frame_refl. intros fid Hin. now apply not_elem_of_nil in Hin.
  - destruct (claim_from_farm _ _ _ _ _) as [c1|] eqn:H1; [|discriminate]. cbn [mbind option_bind] in H.
    assert (Hfs : fst fid = s) by (apply Hs; left).
    rewrite <- Hfs in H1. destruct (finv_claim_from_farm _ _ _ _ _ Hi H1) as (Hi1 & Ho1).
    pose proof (claim_from_farm_frame _ _ _ _ _ _ H1) as Hfr1.
    assert (Ht : seed_total c1 s = seed_total c s).
    { unfold seed_total. destruct Hfr1 as (_ & -> & _). done. }
    rewrite <- Ht in H. apply NoDup_cons in Hnd as [Hnin Hnd].
    destruct (IH c1 c' Hi1 H) as (Hi2 & Ho2 & Hfr2 & Hcur & Hkeep); [intros; apply Hs; now right|done|].
    split_and!; auto.
    + intros t. now rewrite Ho2.
    + eapply claim_frame_trans; eauto.
    + intros x Hx. apply elem_of_cons in Hx as [->|Hx]; [|auto].
      apply Hkeep; [done|]. eapply claim_from_farm_current; eauto.
    + intros x Hx Hcx. apply not_elem_of_cons in Hx as [Hx1 Hx2].
      apply Hkeep; [done|]. eapply claim_from_farm_current_ne; eauto.
Qed.

Lemma finv_claim_by_seed now c a s c' :
  finv now c -> claim_by_seed now c a s = Some c' ->
  finv now c' /\ (forall t, owes c' t = owes c t) /\ claim_frame c c' a /\ is_Some (fs_farmers c' !! a) /\
  (forall sd fid, fs_seeds c !! s = Some sd -> fid ∈ s_farms sd -> rps_current c' a fid).
Proof.
  intros Hi H. unfold claim_by_seed in H.
  destruct (fs_farmers c !! a) as [r|] eqn:Hr; [|discriminate]. cbn [mbind option_bind] in H.
  destruct (fs_seeds c !! s) as [sd|] eqn:Hsd.
  - assert (Ht : seed_total c s = s_amount sd) by (unfold seed_total; now rewrite Hsd).
    rewrite <- Ht in H. destruct Hi as (H1 & H2 & H3 & H4 & H5).
    eapply finv_claim_from_farms in H as (Hi2 & Ho2 & Hfr & Hcur & _); [|split_and!; eauto| |apply NoDup_elements].
    + split_and!; auto.
      * destruct Hfr as (_ & _ & _ & _ & _ & _ & _ & _ & Hfr & _). destruct (Hfr r Hr) as (r' & -> & _). eauto.
      * intros sd' fid [= <-] Hin. apply Hcur. now apply elem_of_elements.
    + intros fid Hin. apply elem_of_elements in Hin. now destruct (H2 _ _ _ Hsd Hin) as (? & _).
  - injection H as <-. split_and!; auto using claim_frame_refl; eauto. discriminate.
Qed.

Lemma finv_claim_by_farm now c a fid c' :
  finv now c -> claim_by_farm now c a fid = Some c' ->
  finv now c' /\ (forall t, owes c' t = owes c t) /\ claim_frame c c' a.
Proof.
  intros Hi H. unfold claim_by_farm in H.
  destruct (fs_farmers c !! a) as [r|] eqn:Hr; [|discriminate]. cbn [mbind option_bind] in H.
  destruct (fs_seeds c !! fst fid) as [sd|] eqn:Hsd.
  - destruct (fs_farms c !! fid) as [f|] eqn:Hf.
    + assert (Ht : seed_total c (fst fid) = s_amount sd) by (unfold seed_total; now rewrite Hsd).
      rewrite <- Ht in H. pose proof (claim_from_farm_frame _ _ _ _ _ _ H).
      destruct (finv_claim_from_farm _ _ _ _ _ Hi H). auto.
    + injection H as <-. auto using claim_frame_refl.
  - injection H as <-. auto using claim_frame_refl.
Qed.

(** ** Changing one stake *)
Lemma finv_set_stake now c a s sd r r' total :
  finv now c -> fs_seeds c !! s = Some sd -> fs_farmers c !! a = Some r ->
  (forall s', s' <> s -> mget (fr_seeds r') s' = mget (fr_seeds r) s') ->
  (forall t, mget (fr_rewards r') t = mget (fr_rewards r) t) ->
  total + mget (fr_seeds r) s = s_amount sd + mget (fr_seeds r') s ->
  (forall fid, fid ∈ s_farms sd -> rps_current c a fid) ->
  let c' := fs_set_seeds (fs_set_farmers c (<[a := r']> (fs_farmers c))) (<[s := s_set_amount sd total]> (fs_seeds c)) in
  finv now c' /\
  (forall t, owes c' t + (if String.eqb s t then s_amount sd else 0) = owes c t + (if String.eqb s t then total else 0)).
Proof.
  intros (H1 & H2 & H3 & H4 & H5) Hsd Ha Hs Hrw Htot Hcur c'.
  assert (HS' : forall s' x, fs_seeds c' !! s' = Some x -> exists y, fs_seeds c !! s' = Some y /\
     s_farms x = s_farms y /\ s_next x = s_next y).
  { intros s' x. subst c'. cbn. destruct (decide (s = s')) as [<-|Hne].
    - rewrite lookup_insert. intros [= <-]. exists sd. done.
    - rewrite lookup_insert_ne by done. eauto. }
  assert (HS : forall s' y, fs_seeds c !! s' = Some y -> exists x, fs_seeds c' !! s' = Some x /\
     s_farms x = s_farms y /\ s_next x = s_next y).
  { intros s' y Hy. subst c'. cbn. destruct (decide (s = s')) as [<-|Hne].
    - rewrite lookup_insert. eexists; split; [reflexivity|]. rewrite Hsd in Hy. injection Hy as <-. done.
    - rewrite lookup_insert_ne by done. eauto. }
  split; [split_and!|].
  - intros fid f Hf. subst c'. cbn [fs_set_seeds fs_set_farmers fs_farms] in Hf.
    destruct (H1 fid f Hf) as (B1 & B2 & B3 & (sd1 & B4 & B4') & B5 & B6). split_and!; auto.
    + destruct (HS _ _ B4) as (x & Hx & E1 & E2). exists x. rewrite E1. done.
    + destruct (decide (fst fid = s)) as [E|Hne].
      * assert (Hc : get_rps c a fid = d_rps (f_dist f)).
        { apply (Hcur fid); [|done]. congruence. }
        unfold owed, get_rps in *. cbn [fs_set_seeds fs_set_farmers fs_farmers fs_rps].
        rewrite (msum_insert_same _ _ a r' r Ha); [exact B5|]. rewrite Hc. lia.
      * erewrite owed_frame; [exact B5|exact Ha|reflexivity|done|now apply Hs].
    + intros b Hb. change (get_rps _ b fid) with (get_rps c b fid). destruct (decide (a = b)) as [<-|Hab].
      * destruct (decide (fst fid = s)) as [E|Hne].
        -- assert (get_rps c a fid = d_rps (f_dist f)) as ->; [|lia]. apply (Hcur fid); [|done]. congruence.
        -- apply B6. erewrite stake_of_frame in Hb; [exact Hb|exact Ha|reflexivity|now apply Hs].
      * apply B6. unfold stake_of in Hb. cbn in Hb. rewrite lookup_insert_ne in Hb by done. exact Hb.
  - intros s' x fid Hx Hin. destruct (HS' _ _ Hx) as (y & Hy & E1 & E2). rewrite E1 in Hin. rewrite E2.
    exact (H2 s' y fid Hy Hin).
  - intros fid f Hf. destruct (H3 fid f Hf) as (B1 & B2 & B3 & sd1 & B4 & B5). split_and!; auto.
    destruct (HS _ _ B4) as (x & Hx & E1 & E2). exists x. rewrite E2. done.
  - intros s'. unfold seed_total, stakes_sum. subst c'. cbn [fs_set_seeds fs_set_farmers fs_seeds fs_farmers].
    specialize (H4 s'). unfold seed_total, stakes_sum in H4.
    pose proof (msum_insert_gen (fun _ r => mget (fr_seeds r) s') (fs_farmers c) a r' r Ha) as E. cbn beta in E.
    destruct (decide (s = s')) as [<-|Hne].
    + rewrite lookup_insert. rewrite Hsd in H4. cbn [s_set_amount s_amount]. lia.
    + rewrite lookup_insert_ne by done. rewrite Hs in E by done. lia.
  - intros b fid v Hv. destruct (H5 b fid v Hv) as (y & Hy & Hlt). destruct (HS _ _ Hy) as (x & Hx & E1 & E2).
    exists x. rewrite E2. done.
  - intros t. unfold owes, seed_total, rewards_sum, farms_owe. subst c'.
    cbn [fs_set_seeds fs_set_farmers fs_seeds fs_farmers fs_farms fs_outdated].
    rewrite (msum_insert_same _ _ a r' r Ha) by apply Hrw.
    destruct (String.eqb_spec s t) as [<-|Hne].
    + rewrite lookup_insert, Hsd. cbn [s_set_amount s_amount]. lia.
    + rewrite lookup_insert_ne by done. lia.
Qed.

(** ** rps entries that do not matter *)
Lemma remove_rps_Some c a fid c' :
  remove_rps c a fid = Some c' ->
  c' = c \/ exists r r', fs_farmers c !! a = Some r /\ fr_seeds r' = fr_seeds r /\ fr_rewards r' = fr_rewards r /\
    fr_amount r' = fr_amount r /\
    c' = fs_set_rps (fs_set_farmers c (<[a := r']> (fs_farmers c))) (delete (a, fid) (fs_rps c)).
Proof.
  unfold remove_rps. intros H. destruct (fs_farmers c !! a) as [r|] eqn:Hr; [|discriminate]. cbn [mbind option_bind] in H.
  destruct (fs_rps c !! (a, fid)); [|left; now injection H as <-].
  inv. subst. right. exists r, (fr_set_count r (fr_count r - 1)). done.
Qed.

Lemma finv_remove_rps now c a fid c' :
  finv now c -> remove_rps c a fid = Some c' -> (stake_of c a (fst fid) = 0 \/ fs_farms c !! fid = None) ->
  finv now c' /\ (forall t, owes c' t = owes c t).
Proof.
  intros Hi H Hz. apply remove_rps_Some in H as [->|(r & r' & Ha & Hs & Hw & _ & ->)]; [done|].
  destruct Hi as (H1 & H2 & H3 & H4 & H5).
  split; [split_and!|].
  - intros fid' f Hf. cbn [fs_set_rps fs_set_farmers fs_farms fs_seeds] in *.
    destruct (H1 fid' f Hf) as (B1 & B2 & B3 & B4 & B5 & B6). split_and!; auto.
    + destruct (decide (fid = fid')) as [<-|Hne].
      * destruct Hz as [Hz|Hz]; [|congruence]. rewrite (stake_of_Some _ _ _ _ Ha) in Hz.
        unfold owed in *. cbn [fs_set_rps fs_set_farmers fs_farmers].
        rewrite (msum_insert_same _ _ a r' r Ha) by now rewrite Hs.
        etransitivity; [|exact B5]. apply msum_le. intros b rb Hb. unfold get_rps. cbn [fs_rps fs_set_rps].
        destruct (decide (a = b)) as [<-|Hab].
        -- rewrite Ha in Hb. injection Hb as <-. rewrite Hz. lia.
        -- rewrite mget_delete_ne by congruence. lia.
      * erewrite owed_frame; [exact B5|exact Ha|reflexivity| |now rewrite Hs].
        intros b. cbn. rewrite mget_delete_ne by congruence. done.
    + intros b Hb. erewrite stake_of_frame in Hb; [|exact Ha|reflexivity|now rewrite Hs].
      unfold get_rps. cbn [fs_rps fs_set_rps]. destruct (decide ((a, fid) = (b, fid'))) as [[= <- <-]|Hne].
      * rewrite mget_delete. lia.
      * rewrite mget_delete_ne by done. now apply B6.
  - exact H2.
  - exact H3.
  - intros s. erewrite stakes_sum_frame; [apply H4|exact Ha|reflexivity|now rewrite Hs].
  - intros b fid' v Hv. cbn [fs_set_rps fs_rps fs_set_farmers fs_seeds] in *.
    apply lookup_delete_Some in Hv as [_ Hv]. eauto.
  - intros t. unfold owes, seed_total, rewards_sum, farms_owe.
    cbn [fs_set_rps fs_set_farmers fs_seeds fs_farmers fs_farms fs_outdated].
    rewrite (msum_insert_same _ _ a r' r Ha); [done|]. now rewrite Hw.
Qed.

Lemma remove_rps_stake c a fid c' b s : remove_rps c a fid = Some c' -> stake_of c' b s = stake_of c b s.
Proof.
  intros H. apply remove_rps_Some in H as [->|(r & r' & Ha & Hs & Hw & _ & ->)]; [done|].
  eapply stake_of_frame; [exact Ha|reflexivity|now rewrite Hs].
Qed.

Lemma finv_remove_rps_all now a s l : forall c c',
  finv now c -> remove_rps_all c a l = Some c' -> stake_of c a s = 0 -> (forall fid, fid ∈ l -> fst fid = s) ->
  finv now c' /\ (forall t, owes c' t = owes c t).
Proof.
  induction l as [|fid l IH]; intros c c' Hi H Hz Hs; cbn [remove_rps_all] in H.
  - now injection H as <-.
  - destruct (remove_rps c a fid) as [c1|] eqn:H1; [|discriminate]. cbn [mbind option_bind] in H.
    destruct (finv_remove_rps _ _ _ _ _ Hi H1) as (Hi1 & Ho1).
    { left. rewrite (Hs fid); [done|left]. }
    destruct (IH c1 c' Hi1 H) as (Hi2 & Ho2).
    + now rewrite (remove_rps_stake _ _ _ _ _ _ H1).
    + intros; apply Hs; now right.
    + split; [done|]. intros t. now rewrite Ho2.
Qed.

(** ** Deposits and withdrawals of seeds *)
Lemma finv_seed_deposit now c s a amount c' :
  finv now c -> seed_deposit now c s a amount = Some c' ->
  finv now c' /\ (forall t, owes c' t = owes c t + if String.eqb s t then amount else 0).
Proof.
  intros Hi H. unfold seed_deposit in H.
  destruct (claim_by_seed now c a s) as [c1|] eqn:Hc; [|discriminate]. cbn [mbind option_bind] in H.
  destruct (finv_claim_by_seed _ _ _ _ _ Hi Hc) as (Hi1 & Ho1 & Hfr & (r & Hr) & Hcur).
  destruct (fs_seeds c1 !! s) as [sd|] eqn:Hsd; [|discriminate]. cbn [mbind option_bind] in H.
  destruct (cadd _ _ _) as [v|] eqn:Hv; [|discriminate]. cbn [mbind option_bind] in H.
  apply cadd_Some in Hv as (-> & _).
  cbn [fs_set_seeds fs_farmers] in H. rewrite Hr in H. cbn [mbind option_bind] in H.
  destruct (fr_add_seed r s amount) as [r'|] eqn:Hadd; [|discriminate]. cbn [mbind option_bind] in H.
  injection H as <-.
  assert (Hadd' : (forall s', s' <> s -> mget (fr_seeds r') s' = mget (fr_seeds r) s') /\
     (forall t, mget (fr_rewards r') t = mget (fr_rewards r) t) /\
     mget (fr_seeds r') s = mget (fr_seeds r) s + amount).
  { unfold fr_add_seed in Hadd. destruct (N.ltb_spec 0 amount); inv; subst.
    - cbn. split_and!; auto.
      + intros s' Hne. apply mget_insert_ne. congruence.
      + rewrite mget_insert. lia.
    - split_and!; auto. lia. }
  destruct Hadd' as (A1 & A2 & A3).
  destruct (finv_set_stake now c1 a s sd r r' (s_amount sd + amount) Hi1 Hsd Hr A1 A2) as (Hi2 & Ho2).
  - lia.
  - intros fid Hin. apply (Hcur sd); [|done]. destruct Hfr as (_ & <- & _). done.
  - split; [exact Hi2|]. intros t. specialize (Ho2 t). rewrite Ho1 in Ho2.
    match type of Ho2 with owes ?x _ + _ = _ => match goal with |- owes ?y _ = _ => change y with x end end.
    destruct (String.eqb s t); lia.
Qed.

Lemma finv_seed_withdraw now c s a amount c' :
  finv now c -> seed_withdraw now c s a amount = Some c' ->
  finv now c' /\ (forall t, owes c' t + (if String.eqb s t then amount else 0) = owes c t).
Proof.
  intros Hi H. unfold seed_withdraw in H.
  destruct (claim_by_seed now c a s) as [c1|] eqn:Hc; [|discriminate]. cbn [mbind option_bind] in H.
  destruct (finv_claim_by_seed _ _ _ _ _ Hi Hc) as (Hi1 & Ho1 & Hfr & (r & Hr) & Hcur).
  destruct (fs_seeds c1 !! s) as [sd|] eqn:Hsd; [|discriminate]. cbn [mbind option_bind] in H.
  rewrite Hr in H. cbn [mbind option_bind] in H.
  destruct (fr_sub_seed r s amount) as [[r' remain]|] eqn:Hsub; [|discriminate]. cbn [mbind option_bind] in H.
  destruct (csub _ _) as [v|] eqn:Hv; [|discriminate]. cbn [mbind option_bind] in H.
  apply csub_Some in Hv as (-> & Hle).
  assert (Hsub' : (forall s', s' <> s -> mget (fr_seeds r') s' = mget (fr_seeds r) s') /\
     (forall t, mget (fr_rewards r') t = mget (fr_rewards r) t) /\
     mget (fr_seeds r') s + amount = mget (fr_seeds r) s /\ mget (fr_seeds r') s = remain).
  { unfold fr_sub_seed in Hsub. destruct (fr_seeds r !! s) as [p|] eqn:Hp; [|discriminate]. cbn [mbind option_bind] in Hsub.
    destruct (N.leb_spec amount p) as [Hlp|]; [|discriminate]. cbn [ensure mbind option_bind] in Hsub. injection Hsub as <- <-.
    assert (mget (fr_seeds r) s = p) as -> by (unfold mget; now rewrite Hp). cbn.
    destruct (N.ltb_spec 0 (p - amount)).
    - rewrite mget_insert. split_and!; auto; try lia. intros s' Hne. apply mget_insert_ne. congruence.
    - rewrite mget_delete. split_and!; auto; try lia. intros s' Hne. apply mget_delete_ne. congruence. }
  destruct Hsub' as (A1 & A2 & A3 & A4).
  destruct (finv_set_stake now c1 a s sd r r' (s_amount sd - amount) Hi1 Hsd Hr A1 A2) as (Hi2 & Ho2).
  { lia. }
  { intros fid Hin. apply (Hcur sd); [|done]. destruct Hfr as (_ & <- & _). done. }
  set (c2 := fs_set_seeds (fs_set_farmers c1 (<[a:=r']> (fs_farmers c1))) (<[s:=s_set_amount sd (s_amount sd - amount)]> (fs_seeds c1))) in *.
  assert (Ho3 : forall t, owes c2 t + (if String.eqb s t then amount else 0) = owes c t).
  { intros t. specialize (Ho2 t). rewrite Ho1 in Ho2. destruct (String.eqb s t); lia. }
  destruct (N.eqb_spec remain 0) as [Hz|Hz].
  - destruct (finv_remove_rps_all now a s (elements (s_farms sd)) c2 c' Hi2 H) as (Hi4 & Ho4).
    + unfold stake_of. subst c2. cbn. rewrite lookup_insert. congruence.
    + intros fid Hin. apply elem_of_elements in Hin. destruct Hi1 as (_ & H2 & _).
      now destruct (H2 _ _ _ Hsd Hin) as (? & _).
    + split; [done|]. intros t. rewrite Ho4. apply Ho3.
  - injection H as <-. done.
Qed.
