(** * The farming contract in its environment: invariants of every run *)
From Verif Require Import Base BaseLemmas Farming SpecFarming FarmingProofs FarmingInv.

(** ** Updates of a single farmer record *)
Lemma stake_of_insert c c' a r' b s :
  fs_farmers c' = <[a := r']> (fs_farmers c) -> mget (fr_seeds r') s = stake_of c a s ->
  stake_of c' b s = stake_of c b s.
Proof.
  intros Hf Hs. unfold stake_of at 1. rewrite Hf. destruct (decide (a = b)) as [<-|Hne].
  - now rewrite lookup_insert.
  - now rewrite lookup_insert_ne.
Qed.

Lemma finv_upd_farmer now c c' a r' :
  finv now c -> fs_seeds c' = fs_seeds c -> fs_rps c' = fs_rps c -> fs_farms c' = fs_farms c ->
  fs_outdated c' = fs_outdated c -> fs_farmers c' = <[a := r']> (fs_farmers c) ->
  (forall s, mget (fr_seeds r') s = stake_of c a s) ->
  finv now c'.
Proof.
  intros (H1 & H2 & H3 & H4 & H5) Es Er Ef Eo Efa Hs. split_and!.
  - intros fid f Hf. rewrite Ef in Hf. destruct (H1 fid f Hf) as (B1 & B2 & B3 & B4 & B5 & B6).
    rewrite Es. split_and!; auto.
    + assert (owed c' fid (d_rps (f_dist f)) = owed c fid (d_rps (f_dist f))) as ->; [|done].
      unfold owed, get_rps. rewrite Efa, Er.
      match goal with |- msum ?g _ = _ => pose proof (msum_insert g (fs_farmers c) a r') as E end.
      cbn beta in E. specialize (Hs (fst fid)). unfold stake_of in Hs.
      destruct (fs_farmers c !! a) as [r|]; cbn [contrib] in E; rewrite Hs in E; lia.
    + intros b Hb. unfold get_rps. rewrite Er. apply B6.
      now rewrite (stake_of_insert c c' a r' b (fst fid) Efa (Hs _)) in Hb.
  - unfold finv_seeds. rewrite Es, Ef. exact H2.
  - unfold finv_outdated. rewrite Es, Ef, Eo. exact H3.
  - intros s. unfold seed_total. rewrite Es. rewrite <- (H4 s) || (specialize (H4 s); unfold seed_total in H4; rewrite H4).
    unfold stakes_sum. rewrite Efa.
    match goal with |- _ = msum ?g _ => pose proof (msum_insert g (fs_farmers c) a r') as E end.
    cbn beta in E. specialize (Hs s). unfold stake_of in Hs.
    destruct (fs_farmers c !! a) as [r|]; cbn [contrib] in E; rewrite Hs in E; lia.
  - unfold finv_rps. rewrite Er, Es. exact H5.
Qed.

Lemma owes_upd_farmer c c' a r' t :
  fs_seeds c' = fs_seeds c -> fs_farms c' = fs_farms c ->
  fs_outdated c' = fs_outdated c -> fs_farmers c' = <[a := r']> (fs_farmers c) ->
  owes c' t + reward_balance c a t = owes c t + mget (fr_rewards r') t.
Proof.
  intros Es Ef Eo Efa. unfold owes, seed_total, farms_owe, rewards_sum, reward_balance. rewrite Es, Ef, Eo, Efa.
  pose proof (msum_insert (fun _ r => mget (fr_rewards r) t) (fs_farmers c) a r') as E. cbn beta in E.
  destruct (fs_farmers c !! a); cbn [contrib] in E; lia.
Qed.

Lemma finv_del_farmer now c c' a r :
  finv now c -> fs_seeds c' = fs_seeds c -> fs_rps c' = fs_rps c -> fs_farms c' = fs_farms c ->
  fs_outdated c' = fs_outdated c -> fs_farmers c' = delete a (fs_farmers c) ->
  fs_farmers c !! a = Some r -> (forall s, mget (fr_seeds r) s = 0) ->
  finv now c'.
Proof.
  intros (H1 & H2 & H3 & H4 & H5) Es Er Ef Eo Efa Ha Hs. split_and!.
  - intros fid f Hf. rewrite Ef in Hf. destruct (H1 fid f Hf) as (B1 & B2 & B3 & B4 & B5 & B6).
    rewrite Es. split_and!; auto.
    + assert (owed c' fid (d_rps (f_dist f)) = owed c fid (d_rps (f_dist f))) as ->; [|done].
      unfold owed, get_rps. rewrite Efa, Er.
      match goal with |- msum ?g _ = _ => pose proof (msum_delete g (fs_farmers c) a r Ha) as E end.
      cbn beta in E. rewrite Hs in E. lia.
    + intros b Hb. unfold get_rps. rewrite Er. apply B6. unfold stake_of in *. rewrite Efa in Hb.
      destruct (decide (a = b)) as [<-|Hne]; [rewrite lookup_delete in Hb; lia|].
      now rewrite lookup_delete_ne in Hb.
  - unfold finv_seeds. rewrite Es, Ef. exact H2.
  - unfold finv_outdated. rewrite Es, Ef, Eo. exact H3.
  - intros s. unfold seed_total. rewrite Es. specialize (H4 s); unfold seed_total in H4; rewrite H4.
    unfold stakes_sum. rewrite Efa.
    match goal with |- _ = msum ?g _ => pose proof (msum_delete g (fs_farmers c) a r Ha) as E end.
    cbn beta in E. rewrite Hs in E. lia.
  - unfold finv_rps. rewrite Er, Es. exact H5.
Qed.

(** fields the invariant does not look at *)
Lemma finv_ext now c c' :
  finv now c -> fs_seeds c' = fs_seeds c -> fs_rps c' = fs_rps c -> fs_farms c' = fs_farms c ->
  fs_outdated c' = fs_outdated c -> fs_farmers c' = fs_farmers c -> finv now c'.
Proof.
  intros H E1 E2 E3 E4 E5.
  assert (E : finv now (mkFState (fs_owner c') (fs_seeds c) (fs_farmers c) (fs_rps c) (fs_farms c) (fs_outdated c) (fs_count c') (fs_info c') (fs_running c'))) by exact H.
  rewrite <- E1, <- E2, <- E3, <- E4, <- E5 in E. now destruct c'.
Qed.
Lemma owes_ext c c' t :
  fs_seeds c' = fs_seeds c -> fs_farms c' = fs_farms c ->
  fs_outdated c' = fs_outdated c -> fs_farmers c' = fs_farmers c -> owes c' t = owes c t.
Proof. intros E1 E3 E4 E5. unfold owes, seed_total, rewards_sum, farms_owe. now rewrite E1, E3, E4, E5. Qed.

(** ** How farms evolve *)
Definition evolve (c c' : FState) (dep : FarmId -> N) : Prop :=
  (forall fid f, known_farm c fid = Some f -> exists f', known_farm c' fid = Some f' /\ farm_le f f' (dep fid)) /\
  (forall fid f', known_farm c fid = None -> known_farm c' fid = Some f' -> dep fid = 0 /\ exists t, f' = farm_new t) /\
  (forall fid, known_farm c fid = None -> dep fid = 0).

Lemma evolve_ext c c' :
  fs_farms c' = fs_farms c -> fs_outdated c' = fs_outdated c -> evolve c c' (fun _ => 0).
Proof.
  intros E1 E2. unfold evolve, known_farm. rewrite E1, E2. split_and!; auto.
  - intros fid f Hf. exists f. split; [done|]. apply farm_le_refl.
  - intros fid f' H1 H2. congruence.
Qed.

Lemma evolve_claim c c' a : claim_frame c c' a -> evolve c c' (fun _ => 0).
Proof.
  intros (_ & _ & Eo & _ & _ & _ & _ & _ & _ & Hf & Hn). unfold evolve, known_farm. rewrite Eo. split_and!; auto.
  - intros fid f H. destruct (fs_farms c !! fid) as [g|] eqn:Hg.
    + injection H as <-. destruct (Hf fid g Hg) as (f' & -> & _ & Hle). eauto.
    + rewrite (Hn fid Hg). exists f. split; [done|]. apply farm_le_refl.
  - intros fid f' H1 H2. destruct (fs_farms c !! fid) as [g|] eqn:Hg; [discriminate|].
    rewrite (Hn fid Hg) in H2. congruence.
Qed.

Lemma evolve_seed_deposit now c s a am c' : finv now c -> seed_deposit now c s a am = Some c' -> evolve c c' (fun _ => 0).
Proof.
  intros Hi H. unfold seed_deposit in H. inv.
  match goal with H : claim_by_seed _ _ _ _ = Some _ |- _ => apply (finv_claim_by_seed _ _ _ _ _ Hi) in H as (_ & _ & H & _) end.
  match goal with H : claim_frame _ _ _ |- _ => apply evolve_claim in H; subst; exact H end.
Qed.

Lemma remove_rps_farms c a fid c' : remove_rps c a fid = Some c' -> fs_farms c' = fs_farms c /\ fs_outdated c' = fs_outdated c.
Proof. intros H. apply remove_rps_Some in H as [->|(r & r' & _ & _ & _ & _ & ->)]; done. Qed.
Lemma remove_rps_all_farms a l : forall c c', remove_rps_all c a l = Some c' -> fs_farms c' = fs_farms c /\ fs_outdated c' = fs_outdated c.
Proof.
  induction l as [|fid l IH]; intros c c' H; cbn [remove_rps_all] in H; [now injection H as <-|].
  destruct (remove_rps c a fid) as [c1|] eqn:H1; [|discriminate]. cbn [mbind option_bind] in H.
  apply IH in H as [-> ->]. eapply remove_rps_farms; eauto.
Qed.

Lemma evolve_seed_withdraw now c s a am c' : finv now c -> seed_withdraw now c s a am = Some c' -> evolve c c' (fun _ => 0).
Proof.
  intros Hi H. unfold seed_withdraw in H.
  destruct (claim_by_seed now c a s) as [c1|] eqn:Hc; [|discriminate]. cbn [mbind option_bind] in H.
  destruct (finv_claim_by_seed _ _ _ _ _ Hi Hc) as (_ & _ & Hfr & _).
  destruct (fs_seeds c1 !! s) as [sd|] eqn:Hsd; [|discriminate]. cbn [mbind option_bind] in H.
  destruct (fs_farmers c1 !! a) as [r|]; [|discriminate]. cbn [mbind option_bind] in H.
  destruct (fr_sub_seed r s am) as [[r' remain]|] eqn:Hsub; [|discriminate]. cbn [mbind option_bind] in H.
  destruct (csub _ _) as [v|] eqn:Hv; [|discriminate]. cbn [mbind option_bind] in H.
  assert (fs_farms c' = fs_farms c1 /\ fs_outdated c' = fs_outdated c1) as [E1 E2].
  { destruct (remain =? 0); [apply remove_rps_all_farms in H as [-> ->]; done|]. now injection H as <-. }
  apply evolve_claim in Hfr. unfold evolve, known_farm in *. rewrite E1, E2. exact Hfr.
Qed.

(** ** Reward deposits *)
Lemma finv_add_reward now c fid f am f' token i :
  finv now c -> fs_farms c !! fid = Some f -> farm_add_reward now f am = Some (Some f') ->
  t_reward (f_terms f) = token ->
  let c' := fs_set_info (fs_set_farms c (<[fid := f']> (fs_farms c))) i in
  finv now c' /\ (forall t, owes c' t = owes c t + if String.eqb token t then am else 0) /\
  evolve c c' (fun x => if decide (fid = x) then am else 0).
Proof.
  intros (H1 & H2 & H3 & H4 & H5) Hf Ha Ht c'.
  destruct (H1 fid f Hf) as (Hwf & Hseed & Hncl & Hsd & Ho & Hst).
  pose proof (farm_wf_add_reward now f am f' Hwf Ha) as Hwf'.
  pose proof (farm_add_reward_Some now f am f' Ha) as (A1 & A2 & A3 & A4 & A5 & A6 & A7).
  assert (Et : t_seed (f_terms f') = t_seed (f_terms f) /\ t_reward (f_terms f') = t_reward (f_terms f)).
  { destruct A3 as [->|(_ & _ & ->)]; done. }
  destruct Et as (Et1 & Et2).
  split; [split_and!|split].
  - intros fid' g Hg. subst c'. cbn [fs_set_info fs_set_farms fs_farms fs_seeds] in *.
    destruct (decide (fid = fid')) as [<-|Hne].
    + rewrite lookup_insert in Hg. injection Hg as <-. rewrite A2, A5. cbn [d_set_undist d_rps d_unclaimed].
      split_and!; auto; try congruence.
    + rewrite lookup_insert_ne in Hg by done. exact (H1 fid' g Hg).
  - intros s sd x Hs Hin. destruct (H2 s sd x Hs Hin) as (B1 & B2 & B3). split_and!; auto.
    subst c'. cbn. destruct (decide (fid = x)) as [<-|Hne]; [rewrite lookup_insert; eauto|now rewrite lookup_insert_ne].
  - intros x g Hg. destruct (H3 x g Hg) as (B1 & B2 & B3 & B4). split_and!; auto.
    subst c'. cbn. rewrite lookup_insert_ne; [done|]. intros <-. congruence.
  - exact H4.
  - exact H5.
  - intros t. unfold owes, seed_total, rewards_sum, farms_owe. subst c'. cbn [fs_set_info fs_set_farms fs_seeds fs_farmers fs_farms fs_outdated].
    pose proof (msum_insert_gen (fun _ f => farm_owes t f) (fs_farms c) fid f' f Hf) as E. cbn beta in E.
    unfold farm_owes in E at 2 4. rewrite Et2, A5, A7, Ht in E. cbn [d_set_undist d_undist d_unclaimed] in E.
    destruct (String.eqb token t); lia.
  - unfold evolve, known_farm. subst c'. cbn [fs_set_info fs_set_farms fs_farms fs_outdated]. split_and!.
    + intros x g Hg. case_decide as E.
      * subst x. rewrite Hf in Hg. injection Hg as <-. rewrite lookup_insert. exists f'. split; [done|].
        unfold farm_le. rewrite A4, A2, A5, A6, A7. cbn [d_set_undist d_rr].
        assert (Est : t_rps (f_terms f') = t_rps (f_terms f) /\ t_interval (f_terms f') = t_interval (f_terms f)).
        { destruct A3 as [->|(_ & _ & ->)]; done. }
        destruct Est. split_and!; auto; try lia.
        -- destruct A1 as [-> | ->]; cbn; lia.
        -- intros Hor. destruct A3 as [->|(E1 & E2 & _)]; [done|]. destruct Hor; congruence.
        -- intros Hor. destruct A1 as [E1|E1]; rewrite E1 in Hor; destruct Hor; discriminate.
      * rewrite lookup_insert_ne by done. exists g. split; [done|]. apply farm_le_refl.
    + intros x g Hn Hg. case_decide as E; [subst x; rewrite Hf in Hn; discriminate|].
      rewrite lookup_insert_ne in Hg by done. congruence.
    + intros x Hn. case_decide as E; [subst x; rewrite Hf in Hn; discriminate|]. done.
Qed.

(** ** Creation and removal of farms *)
Lemma finv_add_farm now c t m c' :
  finv now c -> internal_add_farm c t m = Some c' ->
  finv now c' /\ (forall x, owes c' x = owes c x) /\ evolve c c' (fun _ => 0).
Proof.
  intros (H1 & H2 & H3 & H4 & H5) H. unfold internal_add_farm in H.
  set (sd := default (mkSeed ∅ 0 0 m) (fs_seeds c !! t_seed t)) in *.
  set (fid := (t_seed t, s_next sd)) in *.
  destruct (cadd W32 (s_next sd) 1) as [n|] eqn:Hn; [|discriminate]. cbn [mbind option_bind] in H.
  apply cadd_Some in Hn as (-> & _). injection H as H.
  set (sd' := mkSeed (s_farms sd ∪ {[fid]}) (s_next sd + 1) (s_amount sd) (s_min sd)) in *.
  assert (Hfresh : fs_farms c !! fid = None).
  { destruct (fs_farms c !! fid) as [f|] eqn:E; [|done]. exfalso.
    destruct (H1 _ _ E) as (_ & _ & _ & (sd0 & Hs0 & Hin) & _). destruct (H2 _ _ _ Hs0 Hin) as (_ & Hlt & _).
    subst fid. cbn [fst snd] in *. subst sd. rewrite Hs0 in Hlt. cbn in Hlt. lia. }
  assert (Hfresh' : fs_outdated c !! fid = None).
  { destruct (fs_outdated c !! fid) as [f|] eqn:E; [|done]. exfalso.
    destruct (H3 _ _ E) as (_ & _ & _ & sd0 & Hs0 & Hlt).
    subst fid. cbn [fst snd] in *. subst sd. rewrite Hs0 in Hlt. cbn in Hlt. lia. }
  assert (Hrps : forall a, fs_rps c !! (a, fid) = None).
  { intros a. destruct (fs_rps c !! (a, fid)) as [v|] eqn:E; [|done]. exfalso.
    destruct (H5 _ _ _ E) as (sd0 & Hs0 & Hlt).
    subst fid. cbn [fst snd] in *. subst sd. rewrite Hs0 in Hlt. cbn in Hlt. lia. }
  assert (Hsd : forall s x, fs_seeds c !! s = Some x -> exists y, fs_seeds c' !! s = Some y /\
     (forall fid, fid ∈ s_farms x -> fid ∈ s_farms y) /\ s_next x <= s_next y).
  { intros s x Hx. subst c'. cbn. destruct (decide (t_seed t = s)) as [<-|Hne].
    - rewrite lookup_insert. exists sd'. split; [done|]. subst sd' sd. rewrite Hx. cbn. split; [set_solver|lia].
    - rewrite lookup_insert_ne by done. exists x. split_and!; auto; lia. }
  split; [split_and!|split].
  - intros x g Hg. destruct (decide (fid = x)) as [<-|Hne].
    + subst c'. cbn in Hg. rewrite lookup_insert in Hg. injection Hg as <-.
      split; [apply farm_wf_new|]. split; [done|]. split; [done|]. split; [|split].
      * exists sd'. cbn. rewrite lookup_insert. split; [done|]. set_solver.
      * cbn. unfold owed. rewrite msum_zero; [lia|]. intros a r _. lia.
      * intros a _. unfold get_rps, mget. cbn. rewrite Hrps. cbn. lia.
    + assert (Hg' : fs_farms c !! x = Some g).
      { subst c'. cbn in Hg. now rewrite lookup_insert_ne in Hg. }
      destruct (H1 x g Hg') as (B1 & B2 & B3 & (sd0 & B4 & B4') & B5 & B6). split_and!; auto.
      * destruct (Hsd _ _ B4) as (y & Hy & Hy1 & _). exists y. auto.
      * subst c'. exact B5.
      * subst c'. exact B6.
  - intros s y x Hy Hin. subst c'. cbn in *. destruct (decide (t_seed t = s)) as [<-|Hne].
    + rewrite lookup_insert in Hy. injection Hy as <-. cbn in Hin.
      apply elem_of_union in Hin as [Hin|Hin].
      * destruct (fs_seeds c !! t_seed t) as [sd0|] eqn:E; [|subst sd; cbn in Hin; set_solver].
        destruct (H2 _ _ _ E Hin) as (B1 & B2 & B3). subst sd' sd. cbn in *. split_and!; auto; [lia|].
        destruct (decide (fid = x)) as [<-|Hne]; [rewrite lookup_insert; eauto|now rewrite lookup_insert_ne].
      * apply elem_of_singleton in Hin as ->. subst sd' fid. cbn. split_and!; auto; [lia|].
        rewrite lookup_insert. eauto.
    + rewrite lookup_insert_ne in Hy by done. destruct (H2 _ _ _ Hy Hin) as (B1 & B2 & B3). split_and!; auto.
      destruct (decide (fid = x)) as [<-|Hne']; [rewrite lookup_insert; eauto|now rewrite lookup_insert_ne].
  - intros x g Hg. assert (Hg' : fs_outdated c !! x = Some g) by (subst c'; exact Hg).
    destruct (H3 x g Hg') as (B1 & B2 & B3 & sd0 & B4 & B5). split_and!; auto.
    + subst c'. cbn. rewrite lookup_insert_ne; [done|]. intros <-. congruence.
    + destruct (Hsd _ _ B4) as (y & Hy & _ & Hle). exists y. split; [done|]. lia.
  - intros s. specialize (H4 s). unfold seed_total in *. subst c'. cbn.
    change (stakes_sum _ s) with (stakes_sum c s) || (unfold stakes_sum in *; cbn).
    destruct (decide (t_seed t = s)) as [<-|Hne].
    + rewrite lookup_insert. cbn. subst sd. rewrite <- H4. now destruct (fs_seeds c !! t_seed t).
    + rewrite lookup_insert_ne by done. exact H4.
  - intros a x v Hv. assert (Hv' : fs_rps c !! (a, x) = Some v) by (subst c'; exact Hv).
    destruct (H5 _ _ _ Hv') as (sd0 & B4 & B5). destruct (Hsd _ _ B4) as (y & Hy & _ & Hle).
    exists y. split; [done|]. lia.
  - intros x. unfold owes, farms_owe, rewards_sum. subst c'. cbn [fs_set_farms fs_set_seeds fs_farms fs_farmers fs_outdated].
    pose proof (msum_insert (fun _ f => farm_owes x f) (fs_farms c) fid (farm_new t)) as E. rewrite Hfresh in E. cbn [contrib] in E.
    assert (farm_owes x (farm_new t) = 0) as Hz by (unfold farm_owes; cbn; destruct (String.eqb _ _); done).
    rewrite Hz in E. unfold seed_total. cbn [fs_set_farms fs_set_seeds fs_seeds].
    destruct (decide (t_seed t = x)) as [<-|Hne].
    + rewrite lookup_insert. cbn. subst sd. destruct (fs_seeds c !! t_seed t); cbn in *; lia.
    + rewrite lookup_insert_ne by done. lia.
  - unfold evolve, known_farm. subst c'. cbn [fs_set_farms fs_set_seeds fs_farms fs_outdated]. split_and!; auto.
    + intros x g Hg. destruct (decide (fid = x)) as [<-|Hne]; [rewrite Hfresh, Hfresh' in Hg; discriminate|].
      rewrite lookup_insert_ne by done. exists g. split; [done|]. apply farm_le_refl.
    + intros x g Hn Hg. split; [done|]. destruct (decide (fid = x)) as [<-|Hne].
      * rewrite lookup_insert in Hg. injection Hg as <-. eauto.
      * rewrite lookup_insert_ne in Hg by done. congruence.
Qed.

Lemma farm_le_move_to_clear now f S f' : move_to_clear now f S = Some f' -> farm_le f f' 0.
Proof.
  unfold move_to_clear. intros H. inv.
  assert (Hx' : farm_le f x 0).
  { destruct (f_status f); inv; subst; try apply farm_le_refl. eapply farm_le_distribute; eauto. }
  destruct (f_status x) eqn:Es; inv; subst; try done.
  apply (farm_le_trans _ _ _ 0 0 Hx').
  destruct (0 <? d_unclaimed (f_dist x)); inv; subst; unfold farm_le; cbn; rewrite Es; cbn; split_and!; auto; try lia.
Qed.

Lemma finv_remove_farm now c fid c' b :
  finv now c -> internal_remove_farm now c fid = Some (c', b) ->
  finv now c' /\ (forall x, owes c' x = owes c x) /\ evolve c c' (fun _ => 0).
Proof.
  intros Hi H. unfold internal_remove_farm in H.
  assert (Hsame : finv now c /\ (forall x, owes c x = owes c x) /\ evolve c c (fun _ => 0)).
  { split_and!; auto. now apply evolve_ext. }
  destruct (fs_seeds c !! fst fid) as [sd|] eqn:Hsd; [|injection H as <- <-; done].
  destruct (fs_farms c !! fid) as [f|] eqn:Hf; [|injection H as <- <-; done].
  destruct (can_be_removed now f (s_amount sd)) as [cb|] eqn:Hcb; [|discriminate]. cbn [mbind option_bind] in H.
  destruct cb; [|injection H as <- <-; done].
  destruct (move_to_clear now f (s_amount sd)) as [f'|] eqn:Hm; [|discriminate]. cbn [mbind option_bind] in H.
  clear Hsame. injection H as <- <-.
  destruct Hi as (H1 & H2 & H3 & H4 & H5).
  destruct (H1 fid f Hf) as (Hwf & Hseed & Hncl & (sd0 & Hsd0 & Hin) & Ho & Hst).
  rewrite Hsd in Hsd0. injection Hsd0 as <-.
  pose proof (farm_le_move_to_clear _ _ _ _ Hm) as Hfl.
  destruct (move_to_clear_Some now f (s_amount sd) f' Hwf Hm) as (Hwf' & Hcl & Ht & Hr & Hsum).
  { intros E. unfold can_be_removed in Hcb. rewrite E in Hcb. discriminate. }
  { done. }
  { unfold can_be_removed in Hcb. destruct (f_status f) eqn:Es; try discriminate; auto. right.
    destruct (try_distribute now f (s_amount sd)) as [[od|]|] eqn:Htd; try discriminate.
    cbn in Hcb. injection Hcb as Hcb. apply N.eqb_eq in Hcb. eauto. }
  assert (Hout : fs_outdated c !! fid = None).
  { destruct (fs_outdated c !! fid) as [g|] eqn:E; [|done]. destruct (H3 _ _ E) as (_ & _ & E' & _). congruence. }
  set (c' := fs_set_seeds _ _).
  assert (Hsx : forall s x, fs_seeds c !! s = Some x -> exists y, fs_seeds c' !! s = Some y /\
     (forall fid', fid' ∈ s_farms x -> fid' <> fid -> fid' ∈ s_farms y) /\ s_next x = s_next y).
  { intros s x Hx. subst c'. cbn. destruct (decide (fst fid = s)) as [<-|Hne].
    - rewrite lookup_insert. eexists; split; [reflexivity|]. replace x with sd by congruence. cbn. split; [set_solver|done].
    - rewrite lookup_insert_ne by done. exists x. split_and!; auto. }
  split; [split_and!|split].
  - intros x g Hg. subst c'. cbn [fs_set_seeds fs_set_outdated fs_set_farms fs_farms] in Hg.
    apply lookup_delete_Some in Hg as [Hne Hg].
    destruct (H1 x g Hg) as (B1 & B2 & B3 & (sd1 & B4 & B4') & B5 & B6). split_and!; auto.
    destruct (Hsx _ _ B4) as (y & Hy & Hy1 & _). exists y. auto.
  - intros s y x Hy Hx. subst c'. cbn in *. destruct (decide (fst fid = s)) as [<-|Hne].
    + rewrite lookup_insert in Hy. injection Hy as <-. cbn in Hx. apply elem_of_difference in Hx as [Hx Hnx].
      destruct (H2 _ _ _ Hsd Hx) as (B1 & B2 & B3). split_and!; auto.
      rewrite lookup_delete_ne; [done|]. intros <-. apply Hnx. set_solver.
    + rewrite lookup_insert_ne in Hy by done. destruct (H2 _ _ _ Hy Hx) as (B1 & B2 & B3). split_and!; auto.
      rewrite lookup_delete_ne; [done|]. intros <-. congruence.
  - intros x g Hg. subst c'. cbn in Hg |- *. destruct (decide (fid = x)) as [<-|Hne].
    + rewrite lookup_insert in Hg. injection Hg as <-. split_and!; auto; [apply lookup_delete|].
      rewrite lookup_insert. eexists; split; [reflexivity|]. cbn. now destruct (H2 _ _ _ Hsd Hin) as (_ & ? & _).
    + rewrite lookup_insert_ne in Hg by done. destruct (H3 x g Hg) as (B1 & B2 & B3 & sd1 & B4 & B5). split_and!; auto.
      * now apply lookup_delete_None; right.
      * destruct (Hsx _ _ B4) as (y & Hy & _ & Hle). exists y. split; [exact Hy|]. lia.
  - intros s. specialize (H4 s). unfold seed_total in *. unfold stakes_sum in *. subst c'. cbn.
    destruct (decide (fst fid = s)) as [<-|Hne].
    + rewrite lookup_insert. cbn. now rewrite Hsd in H4.
    + now rewrite lookup_insert_ne.
  - intros a x v Hv. destruct (H5 a x v Hv) as (sd1 & B4 & B5). destruct (Hsx _ _ B4) as (y & Hy & _ & Hle).
    exists y. split; [exact Hy|]. lia.
  - intros x. unfold owes, seed_total, farms_owe, rewards_sum. subst c'. cbn [fs_set_seeds fs_set_outdated fs_set_farms fs_farms fs_farmers fs_outdated fs_seeds].
    pose proof (msum_delete (fun _ f => farm_owes x f) (fs_farms c) fid f Hf) as E1.
    pose proof (msum_insert (fun _ f => farm_owes x f) (fs_outdated c) fid f') as E2. rewrite Hout in E2. cbn [contrib] in E2.
    assert (Hfo : farm_owes x f' = farm_owes x f) by (unfold farm_owes; rewrite Ht, Hsum; done).
    cbn beta in *. rewrite Hfo in E2.
    destruct (decide (fst fid = x)) as [<-|Hne].
    + rewrite lookup_insert, Hsd. cbn. lia.
    + rewrite lookup_insert_ne by done. lia.
  - unfold evolve, known_farm. subst c'. cbn [fs_set_farms fs_set_seeds fs_set_outdated fs_farms fs_outdated]. split_and!; auto.
    + intros x g Hg. destruct (decide (fid = x)) as [<-|Hne].
      * rewrite Hf in Hg. injection Hg as <-. rewrite lookup_delete, lookup_insert. eauto.
      * rewrite lookup_delete_ne, lookup_insert_ne by done. exists g. split; [done|]. apply farm_le_refl.
    + intros x g Hn Hg. destruct (decide (fid = x)) as [<-|Hne]; [rewrite Hf in Hn; discriminate|].
      rewrite lookup_delete_ne, lookup_insert_ne in Hg by done. congruence.
Qed.

(** ** Rewards of a farmer *)
Lemma fr_sub_reward_Some r t am r' sent :
  fr_sub_reward r t am = Some (r', sent) ->
  fr_seeds r' = fr_seeds r /\ mget (fr_rewards r') t + sent = mget (fr_rewards r) t /\
  (forall u, u <> t -> mget (fr_rewards r') u = mget (fr_rewards r) u) /\
  (am <> 0 -> sent = am) /\ (am = 0 -> sent = mget (fr_rewards r) t).
Proof.
  unfold fr_sub_reward. intros H.
  destruct (fr_rewards r !! t) as [v|] eqn:Hv; [|discriminate]. cbn [mbind option_bind] in H.
  assert (mget (fr_rewards r) t = v) as Hm by (unfold mget; now rewrite Hv).
  destruct (N.leb_spec am v) as [Hle|]; [|discriminate]. cbn [ensure mbind option_bind] in H.
  destruct (N.eqb_spec am 0) as [Hz|Hz]; injection H as <- <-; cbn [fr_set_rewards fr_seeds fr_rewards].
  - rewrite mget_delete. split_and!; auto; try done. intros u Hu. apply mget_delete_ne. congruence.
  - rewrite mget_insert. split_and!; auto; try lia. intros u Hu. apply mget_insert_ne. congruence.
Qed.

Lemma withdraw_reward_Some c a att t am c' sent :
  withdraw_reward c a att t am = Some (c', sent) ->
  exists r r', fs_farmers c !! a = Some r /\ fr_sub_reward r t (default 0 am) = Some (r', sent) /\
    att = 1 /\ fs_running c = true /\
    c' = fs_set_farmers c (<[a := r']> (fs_farmers c)).
Proof.
  unfold withdraw_reward. intros H.
  destruct (N.eqb_spec att 1) as [->|]; [|discriminate]. cbn [ensure mbind option_bind] in H.
  destruct (fs_running c) eqn:Hrun; [|discriminate]. cbn [ensure mbind option_bind] in H.
  destruct (fs_farmers c !! a) as [r|] eqn:Hr; [|discriminate]. cbn [mbind option_bind] in H.
  destruct (fr_sub_reward r t (default 0 am)) as [[r' am']|] eqn:Hs; [|discriminate]. cbn [mbind option_bind] in H.
  injection H as <- <-. eauto 10.
Qed.

Lemma finv_withdraw_reward now c a att t am c' sent :
  finv now c -> withdraw_reward c a att t am = Some (c', sent) ->
  finv now c' /\ (forall x, owes c' x + (if String.eqb t x then sent else 0) = owes c x) /\ evolve c c' (fun _ => 0).
Proof.
  intros Hi H. apply withdraw_reward_Some in H as (r & r' & Hr & Hs & _ & _ & ->).
  apply fr_sub_reward_Some in Hs as (E1 & E2 & E3 & _).
  split_and!.
  - eapply finv_upd_farmer; [exact Hi|reflexivity..|]. intros s. rewrite E1, (stake_of_Some _ _ _ _ Hr). done.
  - intros x. pose proof (owes_upd_farmer c (fs_set_farmers c (<[a:=r']> (fs_farmers c))) a r' x eq_refl eq_refl eq_refl eq_refl) as E.
    unfold reward_balance in E. rewrite Hr in E. destruct (String.eqb_spec t x) as [<-|Hne]; [lia|].
    rewrite E3 in E by congruence. lia.
  - now apply evolve_ext.
Qed.

Lemma restore_reward_Some c a t am c' :
  restore_reward c a t am = Some c' ->
  exists r, fs_farmers c !! a = Some r /\
    c' = fs_set_farmers c (<[a := fr_set_rewards r (<[t := mget (fr_rewards r) t + am]> (fr_rewards r))]> (fs_farmers c)).
Proof.
  unfold restore_reward, fr_add_reward. intros H.
  destruct (fs_farmers c !! a) as [r|] eqn:Hr; [|discriminate]. cbn [mbind option_bind] in H. inv. subst. eauto.
Qed.

Lemma finv_restore_reward now c a t am c' :
  finv now c -> restore_reward c a t am = Some c' ->
  finv now c' /\ (forall x, owes c' x = owes c x + if String.eqb t x then am else 0) /\ evolve c c' (fun _ => 0).
Proof.
  intros Hi H. apply restore_reward_Some in H as (r & Hr & ->).
  set (r' := fr_set_rewards r _).
  split_and!.
  - eapply finv_upd_farmer; [exact Hi|reflexivity..|]. intros s. rewrite (stake_of_Some _ _ _ _ Hr). done.
  - intros x. pose proof (owes_upd_farmer c (fs_set_farmers c (<[a:=r']> (fs_farmers c))) a r' x eq_refl eq_refl eq_refl eq_refl) as E.
    unfold reward_balance in E. rewrite Hr in E. subst r'. cbn [fr_set_rewards fr_rewards] in *.
    destruct (String.eqb_spec t x) as [<-|Hne].
    + rewrite mget_insert in E. lia.
    + rewrite mget_insert_ne in E by done. lia.
  - now apply evolve_ext.
Qed.

(** ** Storage management *)
Lemma finv_register now c a am c' :
  finv now c -> register_account c a am = Some c' ->
  finv now c' /\ (forall x, owes c' x = owes c x) /\ evolve c c' (fun _ => 0).
Proof.
  intros Hi H. unfold register_account in H. destruct (fs_farmers c !! a) as [r|] eqn:Hr; inv; subst.
  - set (r' := fr_set_amount r _). split_and!.
    + eapply finv_upd_farmer; [exact Hi|reflexivity..|]. intros s. now rewrite (stake_of_Some _ _ _ _ Hr).
    + intros x. pose proof (owes_upd_farmer c (fs_set_farmers c (<[a:=r']> (fs_farmers c))) a r' x eq_refl eq_refl eq_refl eq_refl) as E.
      unfold reward_balance in E. rewrite Hr in E. subst r'. cbn in E. cbn. lia.
    + now apply evolve_ext.
  - set (r' := farmer_new am). split_and!.
    + eapply finv_upd_farmer; [exact Hi|reflexivity..|]. intros s. unfold stake_of. now rewrite Hr.
    + intros x. match goal with |- owes ?c' _ = _ => pose proof (owes_upd_farmer c c' a r' x eq_refl eq_refl eq_refl eq_refl) as E end.
      unfold reward_balance in E. rewrite Hr in E. subst r'. cbn [farmer_new fr_rewards] in E. unfold mget in E. rewrite lookup_empty in E. cbn [default] in E. lia.
    + now apply evolve_ext.
Qed.

Lemma finv_storage_deposit now c a att ro c' :
  finv now c -> storage_deposit c a att ro = Some c' ->
  finv now c' /\ (forall x, owes c' x = owes c x) /\ evolve c c' (fun _ => 0).
Proof.
  intros Hi H. unfold storage_deposit in H. inv.
  destruct (farmer_storage c a) as [locked dep]. destruct (dep =? 0); inv; eapply finv_register; eauto.
Qed.

Lemma finv_storage_withdraw now c a att am c' n :
  finv now c -> storage_withdraw c a att am = Some (c', n) ->
  finv now c' /\ (forall x, owes c' x = owes c x) /\ evolve c c' (fun _ => 0).
Proof.
  intros Hi H. unfold storage_withdraw in H. inv.
  destruct (farmer_storage c a) as [locked dep].
  destruct (fs_farmers c !! a) as [r|] eqn:Hr; cbn [mbind option_bind] in H; [|inv; discriminate]. inv. subst.
  set (r' := fr_set_amount r _). split_and!.
  - eapply finv_upd_farmer; [exact Hi|reflexivity..|]. intros s. now rewrite (stake_of_Some _ _ _ _ Hr).
  - intros x'. pose proof (owes_upd_farmer c (fs_set_farmers c (<[a:=r']> (fs_farmers c))) a r' x' eq_refl eq_refl eq_refl eq_refl) as E.
    unfold reward_balance in E. rewrite Hr in E. subst r'. cbn [fr_set_amount fr_rewards] in E. lia.
  - now apply evolve_ext.
Qed.

Lemma finv_storage_unregister now c a att c' n :
  finv now c -> storage_unregister c a att = Some (c', n) ->
  finv now c' /\ (forall x, owes c' x = owes c x) /\ evolve c c' (fun _ => 0).
Proof.
  intros Hi H. unfold storage_unregister in H. inv.
  destruct (fs_farmers c !! a) as [r|] eqn:Hr; inv; bool_inv; subst.
  - assert (Hs0 : forall s, mget (fr_seeds r) s = 0).
    { intros s. replace (fr_seeds r) with (∅ : gmap string N) by (symmetry; assumption). done. }
    assert (Hr0 : forall s, mget (fr_rewards r) s = 0).
    { intros s. replace (fr_rewards r) with (∅ : gmap string N) by (symmetry; assumption). done. }
    split_and!.
    + eapply finv_del_farmer; [exact Hi|reflexivity..|exact Hr|done].
    + intros t. unfold owes, seed_total, farms_owe, rewards_sum. cbn [fs_set_count fs_set_farmers fs_seeds fs_farmers fs_farms fs_outdated].
      pose proof (msum_delete (fun _ r => mget (fr_rewards r) t) (fs_farmers c) a r Hr) as E. cbn beta in E.
      rewrite Hr0 in E. lia.
    + now apply evolve_ext.
  - split_and!; auto. now apply evolve_ext.
Qed.

(** ** All calls *)
Definition pend_opt (t : string) (p : option fpend) : N := match p with Some q => pend_owes t q | None => 0 end.

Lemma finv_call now c a x c' p :
  finv now c -> fcall_exec now c a x = Some (c', p) ->
  finv now c' /\ (forall t, owes c' t + pend_opt t p = owes c t) /\ evolve c c' (fun _ => 0) /\
  (forall q, p = Some q -> pend_res q = None).
Proof.
  intros Hi H.
  assert (Hgo : forall c', finv now c' /\ (forall t, owes c' t = owes c t) /\ evolve c c' (fun _ => 0) ->
    finv now c' /\ (forall t, owes c' t + pend_opt t None = owes c t) /\ evolve c c' (fun _ => 0) /\
    (forall q, (None : option fpend) = Some q -> pend_res q = None)).
  { intros c0 (A & B & C). split_and!; auto; [|discriminate]. intros t. cbn. rewrite B. lia. }
  assert (Hext : forall c', fs_seeds c' = fs_seeds c -> fs_rps c' = fs_rps c -> fs_farms c' = fs_farms c ->
     fs_outdated c' = fs_outdated c -> fs_farmers c' = fs_farmers c ->
     finv now c' /\ (forall t, owes c' t = owes c t) /\ evolve c c' (fun _ => 0)).
  { intros c0 E1 E2 E3 E4 E5. split_and!; [now apply (finv_ext now c)|intros; now apply owes_ext|now apply evolve_ext]. }
  destruct x; cbn [fcall_exec] in H.
  - inv. subst. apply Hgo. unfold create_simple_farm in *. inv. subst.
    eapply finv_add_farm; eauto.
  - inv. subst. apply Hgo. unfold set_owner in *. inv. subst. now apply Hext.
  - inv. subst. apply Hgo. unfold force_clean_farm in *. inv. subst. eapply finv_remove_farm; eauto.
  - inv. subst. apply Hgo. unfold modify_seed_min_deposit in *.
    match goal with H : (_ ← _; _) = Some _ |- _ => rename H into G end.
    destruct (assert_owner c a); [|discriminate]. cbn [mbind option_bind] in G.
    destruct (fs_seeds c !! s) as [sd|] eqn:Hsd; [|discriminate]. cbn [mbind option_bind] in G. injection G as <-.
    destruct Hi as (H1 & H2 & H3 & H4 & H5). set (sd' := mkSeed _ _ _ _).
    assert (Hsx : forall s0 y, fs_seeds c !! s0 = Some y -> exists z, <[s:=sd']> (fs_seeds c) !! s0 = Some z /\
        s_farms z = s_farms y /\ s_next z = s_next y /\ s_amount z = s_amount y).
    { intros s0 y Hy. destruct (decide (s = s0)) as [<-|Hne].
      - rewrite lookup_insert. exists sd'. replace y with sd by congruence. done.
      - rewrite lookup_insert_ne by done. eauto. }
    assert (Hst : forall s0, match <[s:=sd']> (fs_seeds c) !! s0 with Some z => s_amount z | None => 0 end = seed_total c s0).
    { intros s0. unfold seed_total. destruct (fs_seeds c !! s0) as [y|] eqn:Hy.
      - destruct (Hsx _ _ Hy) as (z & -> & _ & _ & ->). done.
      - rewrite lookup_insert_ne by congruence. now rewrite Hy. }
    split; [split_and!|split].
    + intros fid f Hf. destruct (H1 fid f Hf) as (B1 & B2 & B3 & (sd1 & B4 & B4') & B5 & B6). split_and!; auto.
      destruct (Hsx _ _ B4) as (z & Hz & E & _). exists z. rewrite E. done.
    + intros s0 z fid Hz Hin. cbn [fs_set_seeds fs_seeds] in Hz. destruct (decide (s = s0)) as [<-|Hne].
      * rewrite lookup_insert in Hz. injection Hz as <-. exact (H2 _ _ _ Hsd Hin).
      * rewrite lookup_insert_ne in Hz by done. exact (H2 _ _ _ Hz Hin).
    + intros fid f Hf. destruct (H3 fid f Hf) as (B1 & B2 & B3 & sd1 & B4 & B5). split_and!; auto.
      destruct (Hsx _ _ B4) as (z & Hz & _ & E & _). exists z. rewrite E. done.
    + intros s0. unfold seed_total at 1. cbn [fs_set_seeds fs_seeds]. rewrite Hst. apply H4.
    + intros b fid v Hv. destruct (H5 b fid v Hv) as (sd1 & B4 & B5).
      destruct (Hsx _ _ B4) as (z & Hz & _ & E & _). exists z. rewrite E. done.
    + intros t. unfold owes. unfold seed_total at 1. cbn [fs_set_seeds fs_seeds]. rewrite Hst. done.
    + now apply evolve_ext.
  - inv. subst. apply Hgo. unfold set_running in *. inv. subst. now apply Hext.
  - inv. subst. apply Hgo. unfold set_running in *. inv. subst. now apply Hext.
  - inv. subst. apply Hgo. eapply finv_storage_deposit; eauto.
  - inv. subst. apply Hgo. eapply finv_storage_withdraw; eauto.
  - inv. subst. apply Hgo. eapply finv_storage_unregister; eauto.
  - inv. subst. apply Hgo. unfold claim_reward_by_farm in *. inv. subst.
    match goal with H : claim_by_farm _ _ _ _ = Some _ |- _ => apply (finv_claim_by_farm _ _ _ _ _ Hi) in H as (? & ? & ?) end.
    eauto using evolve_claim.
  - inv. subst. apply Hgo. unfold claim_reward_by_seed in *. inv. subst.
    match goal with H : claim_by_seed _ _ _ _ = Some _ |- _ => apply (finv_claim_by_seed _ _ _ _ _ Hi) in H as (? & ? & ? & _) end.
    eauto using evolve_claim.
  - inv. subst. apply Hgo. unfold remove_user_rps_by_farm in *.
    match goal with H : (_ ← _; _) = Some _ |- _ => rename H into G end.
    destruct (fs_running c); [|discriminate]. cbn [ensure mbind option_bind] in G.
    destruct (fs_farmers c !! a); [|discriminate]. cbn [mbind option_bind] in G.
    destruct (fs_seeds c !! fst fid) as [sd|] eqn:Hsd; [|discriminate]. cbn [mbind option_bind] in G.
    case_bool_decide as Hin; [injection G as <-; now apply Hext|].
    assert (Hnf : fs_farms c !! fid = None).
    { destruct (fs_farms c !! fid) as [f0|] eqn:E; [|done]. exfalso. destruct Hi as (H1 & _).
      destruct (H1 _ _ E) as (_ & _ & _ & (sd1 & Hs1 & Hi1) & _). apply Hin. congruence. }
    destruct (finv_remove_rps _ _ _ _ _ Hi G (or_intror Hnf)) as (A & B).
    split_and!; auto. apply remove_rps_farms in G as [E1 E2]. now apply evolve_ext.
  - inv. subst. unfold withdraw_seed in *. inv.
    match goal with H : seed_withdraw _ _ _ _ _ = Some _ |- _ =>
      pose proof (evolve_seed_withdraw _ _ _ _ _ _ Hi H); apply (finv_seed_withdraw _ _ _ _ _ _ Hi) in H as (A & B) end.
    split_and!; auto. intros q [= <-]; done.
  - inv. subst.
    match goal with H : withdraw_reward _ _ _ _ _ = Some _ |- _ => apply (finv_withdraw_reward _ _ _ _ _ _ _ _ Hi) in H as (A & B & C) end.
    split_and!; auto. intros q [= <-]. done.
Qed.

Lemma finv_token now c token a am msg c' :
  finv now c -> ft_on_transfer now c token a am msg = Some c' ->
  finv now c' /\ (forall t, owes c' t = owes c t + if String.eqb token t then am else 0) /\
  evolve c c' (fun x => match msg with Some fid => if decide (fid = x) then am else 0 | None => 0 end).
Proof.
  intros Hi H. unfold ft_on_transfer in H.
  destruct (fs_running c); [|discriminate]. cbn [ensure mbind option_bind] in H.
  destruct msg as [fid|].
  - destruct (fs_farms c !! fid) as [f|] eqn:Hf; [|discriminate]. cbn [mbind option_bind] in H.
    destruct (String.eqb_spec (t_reward (f_terms f)) token) as [Ht|]; [|discriminate]. cbn [ensure mbind option_bind] in H.
    destruct (farm_add_reward now f am) as [[f'|]|] eqn:Ha; try discriminate. cbn [mbind option_bind] in H.
    destruct (cadd _ _ _) as [i|]; [|discriminate]. cbn [mbind option_bind] in H. injection H as <-.
    eapply finv_add_reward; eauto.
  - destruct (fs_seeds c !! token) as [sd|]; [|discriminate]. cbn [mbind option_bind] in H.
    destruct (ensure _); [|discriminate]. cbn [mbind option_bind] in H.
    destruct (seed_deposit now c token a am) as [c1|] eqn:Hd; [|discriminate]. cbn [mbind option_bind] in H.
    destruct (assert_storage_usage c1 a); [|discriminate]. cbn [mbind option_bind] in H. injection H as <-.
    pose proof (evolve_seed_deposit _ _ _ _ _ _ Hi Hd). destruct (finv_seed_deposit _ _ _ _ _ _ Hi Hd). auto.
Qed.

(** ** The world *)
Definition winv (w : FWorld) : Prop :=
  finv (w_now w) (w_c w) /\
  (forall t, owes (w_c w) t + inflight w t <= mget (w_hold w) t) /\
  (forall id, (w_next w <= id)%nat -> w_pend w !! id = None).

Lemma winv_new owner : winv (fw_new owner).
Proof.
  split_and!.
  - split_and!.
    + intros fid f Hf. cbn in Hf. now rewrite lookup_empty in Hf.
    + intros s sd fid Hf. cbn in Hf. now rewrite lookup_empty in Hf.
    + intros fid f Hf. cbn in Hf. now rewrite lookup_empty in Hf.
    + intros s. unfold seed_total, stakes_sum. cbn. now rewrite lookup_empty.
    + intros a fid v Hf. cbn in Hf. now rewrite lookup_empty in Hf.
  - intros t. unfold owes, inflight, seed_total, rewards_sum, farms_owe. cbn [fw_new w_c w_hold w_pend fs_new fs_seeds fs_farmers fs_farms fs_outdated].
    rewrite lookup_empty. unfold mget. rewrite lookup_empty. done.
  - intros id _. apply lookup_empty.
Qed.

Definition dep1 (fid : FarmId) (e : fevent) : N :=
  match e with EvToken _ _ _ am (Some fid') => if decide (fid' = fid) then am else 0 | _ => 0 end.

Lemma w_tick_Some w now u : w_tick w now = Some u -> w_now w <= now /\ now < W64.
Proof. unfold w_tick. intros H. inv. bool_inv. auto. Qed.

Lemma finv_restore now c p c' :
  finv now c -> callback_restore now c p = Some c' -> pend_res p = Some false ->
  finv now c' /\ (forall t, owes c' t = owes c t + pend_owes t p) /\ evolve c c' (fun _ => 0).
Proof.
  intros Hi H Hp. destruct p as [t a m res|s a m res]; cbn in H, Hp; subst res.
  - eapply finv_restore_reward in H as (A & B & C); [|exact Hi]. split_and!; auto.
  - pose proof (evolve_seed_deposit _ _ _ _ _ _ Hi H). destruct (finv_seed_deposit _ _ _ _ _ _ Hi H) as (A & B).
    split_and!; auto.
Qed.

Lemma evolve_refl c : evolve c c (fun _ => 0).
Proof. now apply evolve_ext. Qed.

Lemma winv_step w e w' :
  winv w -> fstep w e = Some w' -> winv w' /\ evolve (w_c w) (w_c w') (fun fid => dep1 fid e).
Proof.
  intros (Hi & Hh & Hp) H. destruct e as [now a x|now token a am msg|token am|id ok|now id]; cbn [fstep] in H.
  - destruct (w_tick w now) as [u|] eqn:Ht; [|discriminate]. cbn [mbind option_bind] in H. apply w_tick_Some in Ht as [Hn _].
    apply (finv_mono _ now) in Hi; [|done].
    destruct (fcall_exec now (w_c w) a x) as [[c' p]|] eqn:Hc; [|discriminate]. cbn [mbind option_bind] in H.
    destruct (finv_call _ _ _ _ _ _ Hi Hc) as (A & B & C & D). injection H as <-. destruct p as [q|]; (split; [split_and!|exact C]).
    + exact A.
    + intros t. cbn [w_c w_hold]. unfold inflight. cbn [w_pend].
      pose proof (msum_insert (fun _ p => pend_owes t p) (w_pend w) (w_next w) q) as E. rewrite (Hp (w_next w)) in E by done.
      cbn [contrib] in E. specialize (B t). specialize (Hh t). unfold inflight in Hh. cbn [pend_opt] in B. lia.
    + intros id Hid. cbn [w_next w_pend] in *. rewrite lookup_insert_ne by lia. apply Hp. lia.
    + exact A.
    + intros t. specialize (B t). specialize (Hh t). unfold inflight in *. cbn [w_pend w_c w_hold pend_opt] in *. lia.
    + exact Hp.
  - destruct (w_tick w now) as [u|] eqn:Ht; [|discriminate]. cbn [mbind option_bind] in H. apply w_tick_Some in Ht as [Hn _].
    apply (finv_mono _ now) in Hi; [|done].
    destruct (ft_on_transfer now (w_c w) token a am msg) as [c'|] eqn:Hc; [|discriminate]. cbn [mbind option_bind] in H.
    injection H as <-. destruct (finv_token _ _ _ _ _ _ _ Hi Hc) as (A & B & C). split; [split_and!|].
    + exact A.
    + intros t. specialize (B t). specialize (Hh t). unfold inflight in *. cbn [w_pend w_c w_hold] in *.
      destruct (String.eqb_spec token t) as [<-|Hne]; [rewrite mget_insert|rewrite mget_insert_ne by done]; lia.
    + exact Hp.
    + cbn [w_c dep1]. destruct msg; exact C.
  - injection H as <-. split; [split_and!|].
    + exact Hi.
    + intros t. specialize (Hh t). unfold inflight in *. cbn [w_pend w_c w_hold] in *.
      destruct (decide (token = t)) as [<-|Hne]; [rewrite mget_insert|rewrite mget_insert_ne by done]; lia.
    + exact Hp.
    + apply evolve_refl.
  - destruct (w_pend w !! id) as [p|] eqn:Hid; [|discriminate]. cbn [mbind option_bind] in H.
    destruct (pend_res p) as [|] eqn:Hres; [discriminate|].
    destruct (if ok then _ else _) as [h|] eqn:Hhh; [|discriminate]. cbn [mbind option_bind] in H. injection H as <-.
    split; [split_and!|].
    + exact Hi.
    + intros t. specialize (Hh t). unfold inflight in *. cbn [w_pend w_c w_hold] in *.
      pose proof (msum_insert_gen (fun _ p => pend_owes t p) (w_pend w) id (pend_set_res p (Some ok)) p Hid) as E. cbn beta in E.
      assert (E1 : pend_owes t p = if String.eqb (pend_asset p) t then pend_amount p else 0).
      { unfold pend_owes. now rewrite Hres. }
      assert (E2 : pend_owes t (pend_set_res p (Some ok)) = if ok then 0 else pend_owes t p).
      { rewrite E1. destruct p; destruct ok; reflexivity. }
      rewrite E2 in E. destruct ok.
      * apply csub_Some in Hhh as (-> & Hle).
        destruct (String.eqb_spec (pend_asset p) t) as [Ea|Hne].
        -- rewrite Ea, mget_insert. rewrite Ea in Hle. lia.
        -- rewrite mget_insert_ne by done. lia.
      * injection Hhh as <-. destruct (decide (pend_asset p = t)) as [<-|Hne].
        -- rewrite mget_insert. lia.
        -- rewrite mget_insert_ne by done. lia.
    + intros id' Hid'. cbn [w_next w_pend] in *. rewrite lookup_insert_ne; [auto|].
      intros <-. rewrite Hp in Hid by done. discriminate.
    + apply evolve_refl.
  - destruct (w_tick w now) as [u|] eqn:Ht; [|discriminate]. cbn [mbind option_bind] in H. apply w_tick_Some in Ht as [Hn _].
    apply (finv_mono _ now) in Hi; [|done].
    destruct (w_pend w !! id) as [p|] eqn:Hid; [|discriminate]. cbn [mbind option_bind] in H.
    assert (Hdel : forall t, msum (fun _ p => pend_owes t p) (delete id (w_pend w)) + pend_owes t p = inflight w t).
    { intros t. pose proof (msum_delete (fun _ p => pend_owes t p) (w_pend w) id p Hid) as E. cbn beta in E. unfold inflight. lia. }
    assert (Hnone : forall id', (w_next w <= id')%nat -> delete id (w_pend w) !! id' = None).
    { intros id' Hid'. apply lookup_delete_None. right. auto. }
    destruct (pend_res p) as [[|]|] eqn:Hres; [| |discriminate]; injection H as <-.
    + split; [split_and!|apply evolve_refl]; auto.
      intros t. specialize (Hh t). unfold inflight at 1. cbn [w_pend w_c w_hold]. specialize (Hdel t). lia.
    + destruct (callback_restore now (w_c w) p) as [c'|] eqn:Hcb; cbn [default Datatypes.id].
      * destruct (finv_restore _ _ _ _ Hi Hcb Hres) as (A & B & C). split; [split_and!|exact C]; auto.
        intros t. specialize (Hh t). specialize (B t). unfold inflight at 1. cbn [w_pend w_c w_hold Datatypes.id]. specialize (Hdel t). lia.
      * split; [split_and!|apply evolve_refl]; auto.
        intros t. specialize (Hh t). unfold inflight at 1. cbn [w_pend w_c w_hold]. specialize (Hdel t). lia.
Qed.

Lemma winv_run w es w' : frun w es w' -> winv w -> winv w'.
Proof. induction 1 as [|w e w1 es w2 Hs _ IH]; intros Hi; [done|]. apply IH. eapply winv_step; eauto. Qed.
Lemma winv_reachable w : freachable w -> winv w.
Proof. intros (owner & es & H). eapply winv_run; [exact H|apply winv_new]. Qed.

Lemma deposited_cons fid e es : deposited fid (e :: es) = dep1 fid e + deposited fid es.
Proof. unfold deposited, dep1. cbn [foldr]. destruct e as [| ? ? ? ? [fid'|] | | |]; try lia. case_decide; lia. Qed.

Lemma evolve_run w es w' : frun w es w' -> winv w ->
  (forall fid f, known_farm (w_c w) fid = Some f ->
     exists f', known_farm (w_c w') fid = Some f' /\ farm_le f f' (deposited fid es)) /\
  (forall fid f', known_farm (w_c w) fid = None -> known_farm (w_c w') fid = Some f' ->
     exists t, farm_le (farm_new t) f' (deposited fid es)).
Proof.
  induction 1 as [|w e w1 es w2 Hs Hr IH]; intros Hi.
  - split.
    + intros fid f Hf. exists f. split; [done|]. apply farm_le_refl.
    + intros fid f' H1 H2. congruence.
  - destruct (winv_step _ _ _ Hi Hs) as (Hi1 & E1 & E2 & E3). destruct (IH Hi1) as (F1 & F2). split.
    + intros fid f Hf. destruct (E1 fid f Hf) as (f1 & Hf1 & L1). destruct (F1 fid f1 Hf1) as (f2 & Hf2 & L2).
      exists f2. split; [done|]. rewrite deposited_cons. eapply farm_le_trans; eauto.
    + intros fid f' Hn Hf'. rewrite deposited_cons, (E3 fid Hn). destruct (known_farm (w_c w1) fid) as [f1|] eqn:Hf1.
      * destruct (E2 fid f1 Hn Hf1) as (_ & t & ->). destruct (F1 fid _ Hf1) as (f2 & Hf2 & L2).
        exists t. rewrite N.add_0_l. rewrite Hf' in Hf2. now injection Hf2 as <-.
      * rewrite N.add_0_l. now apply F2.
Qed.
