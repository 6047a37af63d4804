(** * NEAR, storage, statistics and views of the farming contract: C72-C75.
    Vocabulary: SpecFarming.v, SpecFarmNear.v. *)
From Verif Require Import Base BaseLemmas Farming SpecFarming FarmingProofs FarmingInv FarmingWorld.
From Verif Require Import FarmingViews SpecFarmNear PropFarming.

(** ** Sums over maps that agree pointwise *)
Lemma msum_pointwise {K V} `{Countable K} (g : K -> V -> N) (m m' : gmap K V) :
  (forall k, contrib g k (m' !! k) = contrib g k (m !! k)) -> msum g m' = msum g m.
Proof.
  revert m'. induction m as [|i x m Hi IH] using map_ind; intros m' Hk.
  - rewrite msum_empty. apply msum_zero. intros k v Hv. specialize (Hk k). rewrite Hv, lookup_empty in Hk. exact Hk.
  - rewrite msum_insert_None by done. rewrite <- (msum_delete_gen g m' i), (IH (delete i m')).
    + rewrite Hk, lookup_insert. cbn. lia.
    + intros k. destruct (decide (i = k)) as [<-|Hne].
      * now rewrite lookup_delete, Hi.
      * rewrite lookup_delete_ne by done. now rewrite Hk, lookup_insert_ne by done.
Qed.
Lemma msum_pointwise_one {K V} `{Countable K} (g : K -> V -> N) (m m' : gmap K V) k0 d :
  (forall k, contrib g k (m' !! k) = contrib g k (m !! k) + if decide (k0 = k) then d else 0) -> msum g m' = msum g m + d.
Proof.
  intros Hk. rewrite <- (msum_delete_gen g m' k0), <- (msum_delete_gen g m k0).
  rewrite (msum_pointwise g (delete k0 m) (delete k0 m')).
  - rewrite Hk. rewrite decide_True by done. lia.
  - intros k. destruct (decide (k0 = k)) as [<-|Hne]; [now rewrite !lookup_delete|].
    rewrite !lookup_delete_ne by done. rewrite Hk, decide_False by done. lia.
Qed.

(** ** What the operations do to the recorded NEAR *)
Definition amts (c : FState) : gmap AccountId N := fr_amount <$> fs_farmers c.
Lemma paid_by_amts c a : paid_by c a = mget (amts c) a.
Proof. unfold paid_by, mget, amts. rewrite lookup_fmap. now destruct (fs_farmers c !! a). Qed.
Lemma paid_total_amts c : paid_total c = msum (fun _ x => x) (amts c).
Proof.
  unfold paid_total, amts. induction (fs_farmers c) as [|i x m Hi IH] using map_ind.
  - now rewrite fmap_empty, !msum_empty.
  - rewrite fmap_insert, !msum_insert_None; [now rewrite IH|now rewrite lookup_fmap, Hi|done].
Qed.
Lemma size_amts c : size (amts c) = size (fs_farmers c).
Proof. unfold amts. apply map_size_fmap. Qed.

Definition same_book (c c' : FState) : Prop := amts c' = amts c /\ fs_count c' = fs_count c /\ fs_info c' = fs_info c.
Lemma same_book_refl c : same_book c c. Proof. done. Qed.
Lemma same_book_trans c1 c2 c3 : same_book c1 c2 -> same_book c2 c3 -> same_book c1 c3.
Proof. intros (A1 & A2 & A3) (B1 & B2 & B3). split_and!; congruence. Qed.
Lemma same_book_ext c c' : fs_farmers c' = fs_farmers c -> fs_count c' = fs_count c -> fs_info c' = fs_info c -> same_book c c'.
Proof. intros E1 E2 E3. unfold same_book, amts. now rewrite E1. Qed.
Lemma same_book_upd c c' a r r' :
  fs_farmers c !! a = Some r -> fs_farmers c' = <[a := r']> (fs_farmers c) -> fr_amount r' = fr_amount r ->
  fs_count c' = fs_count c -> fs_info c' = fs_info c -> same_book c c'.
Proof.
  intros Hr E1 E2 E3 E4. split; [|done]. unfold amts. rewrite E1, fmap_insert, E2. apply insert_id. now rewrite lookup_fmap, Hr.
Qed.

Lemma book_claim c c' a : claim_frame c c' a -> is_Some (fs_farmers c !! a) -> same_book c c'.
Proof.
  intros (_ & _ & _ & Ec & Ei & _ & Ho & _ & Ha & _) [r Hr]. split; [|done]. apply map_eq. intros b. unfold amts. rewrite !lookup_fmap.
  destruct (decide (b = a)) as [->|Hne].
  - destruct (Ha r Hr) as (r' & Hr' & _ & E & _). rewrite Hr, Hr'. cbn. now rewrite E.
  - now rewrite Ho.
Qed.
Lemma claim_by_seed_registered now c a s c' : claim_by_seed now c a s = Some c' -> is_Some (fs_farmers c !! a).
Proof. unfold claim_by_seed. destruct (fs_farmers c !! a); [eauto|discriminate]. Qed.
Lemma claim_by_farm_registered now c a fid c' : claim_by_farm now c a fid = Some c' -> is_Some (fs_farmers c !! a).
Proof. unfold claim_by_farm. destruct (fs_farmers c !! a); [eauto|discriminate]. Qed.
Lemma book_claim_by_seed now c a s c' : finv now c -> claim_by_seed now c a s = Some c' -> same_book c c'.
Proof. intros Hi H. pose proof (claim_by_seed_registered _ _ _ _ _ H). apply (finv_claim_by_seed _ _ _ _ _ Hi) in H as (_ & _ & H & _). eauto using book_claim. Qed.
Lemma book_claim_by_farm now c a fid c' : finv now c -> claim_by_farm now c a fid = Some c' -> same_book c c'.
Proof. intros Hi H. pose proof (claim_by_farm_registered _ _ _ _ _ H). apply (finv_claim_by_farm _ _ _ _ _ Hi) in H as (_ & _ & H). eauto using book_claim. Qed.
Lemma book_remove_rps c a fid c' : remove_rps c a fid = Some c' -> same_book c c'.
Proof.
  unfold remove_rps. intros H. destruct (fs_farmers c !! a) as [r|] eqn:Hr; [|discriminate]. cbn [mbind option_bind] in H.
  destruct (fs_rps c !! (a, fid)); inv; subst; [|apply same_book_refl]. eapply same_book_upd; [exact Hr|reflexivity|done|done|done].
Qed.
Lemma book_remove_rps_all a l : forall c c', remove_rps_all c a l = Some c' -> same_book c c'.
Proof.
  induction l as [|fid l IH]; intros c c' H; cbn [remove_rps_all] in H; [injection H as <-; apply same_book_refl|].
  destruct (remove_rps c a fid) as [c1|] eqn:H1; [|discriminate]. cbn [mbind option_bind] in H.
  eapply same_book_trans; [eapply book_remove_rps; eauto|eauto].
Qed.
Lemma book_seed_deposit now c s a am c' : finv now c -> seed_deposit now c s a am = Some c' -> same_book c c'.
Proof.
  intros Hi H. unfold seed_deposit in H.
  destruct (claim_by_seed now c a s) as [c1|] eqn:Hc; [|discriminate]. cbn [mbind option_bind] in H.
  destruct (fs_seeds c1 !! s) as [sd|]; [|discriminate]. cbn [mbind option_bind] in H.
  destruct (cadd _ _ _) as [v|]; [|discriminate]. cbn [mbind option_bind fs_set_seeds fs_farmers] in H.
  destruct (fs_farmers c1 !! a) as [r|] eqn:Hr; [|discriminate]. cbn [mbind option_bind] in H.
  destruct (fr_add_seed r s am) as [r'|] eqn:Hs; [|discriminate]. cbn [mbind option_bind] in H. injection H as <-.
  eapply same_book_trans; [eapply book_claim_by_seed; eauto|]. eapply same_book_upd; [exact Hr|reflexivity| |done|done].
  unfold fr_add_seed in Hs. destruct (0 <? am); inv; subst; done.
Qed.
Lemma book_seed_withdraw now c s a am c' : finv now c -> seed_withdraw now c s a am = Some c' -> same_book c c'.
Proof.
  intros Hi H. unfold seed_withdraw in H.
  destruct (claim_by_seed now c a s) as [c1|] eqn:Hc; [|discriminate]. cbn [mbind option_bind] in H.
  destruct (fs_seeds c1 !! s) as [sd|]; [|discriminate]. cbn [mbind option_bind] in H.
  destruct (fs_farmers c1 !! a) as [r|] eqn:Hr; [|discriminate]. cbn [mbind option_bind] in H.
  destruct (fr_sub_seed r s am) as [[r' remain]|] eqn:Hsub; [|discriminate]. cbn [mbind option_bind] in H.
  destruct (csub _ _) as [v|]; [|discriminate]. cbn [mbind option_bind] in H.
  set (c2 := fs_set_seeds (fs_set_farmers c1 _) _) in H.
  assert (same_book c c2).
  { eapply same_book_trans; [eapply book_claim_by_seed; eauto|]. eapply same_book_upd; [exact Hr|reflexivity| |done|done].
    unfold fr_sub_seed in Hsub. inv. subst. done. }
  destruct (remain =? 0); [|now injection H as <-]. eapply same_book_trans; [eassumption|eapply book_remove_rps_all; eauto].
Qed.
Lemma book_remove_farm now c fid c' b : internal_remove_farm now c fid = Some (c', b) -> same_book c c'.
Proof.
  unfold internal_remove_farm. intros H. destruct (fs_seeds c !! fst fid) as [sd|]; [|now inv; subst].
  destruct (fs_farms c !! fid) as [f|]; [|now inv; subst].
  destruct (can_be_removed _ _ _) as [[|]|]; [| |discriminate]; cbn [mbind option_bind] in H; [|now inv; subst].
  destruct (move_to_clear _ _ _) as [f'|]; [|discriminate]. cbn [mbind option_bind] in H. injection H as <- _. now apply same_book_ext.
Qed.

Definition is_storage (x : fcall) : bool :=
  match x with CStorageDeposit _ _ _ | CStorageWithdraw _ _ | CStorageUnregister _ => true | _ => false end.
Lemma book_call now c a x c' p :
  finv now c -> fcall_exec now c a x = Some (c', p) -> is_storage x = false -> same_book c c'.
Proof.
  intros Hi H Hx. destruct x; try discriminate Hx; cbn [fcall_exec] in H.
  - unfold create_simple_farm, internal_add_farm in H. inv. subst. now apply same_book_ext.
  - unfold set_owner in H. inv. subst. now apply same_book_ext.
  - unfold force_clean_farm in H. inv. subst. eapply book_remove_farm; eauto.
  - unfold modify_seed_min_deposit in H. inv. subst. now apply same_book_ext.
  - unfold set_running in H. inv. subst. now apply same_book_ext.
  - unfold set_running in H. inv. subst. now apply same_book_ext.
  - unfold claim_reward_by_farm in H. inv. subst. eapply book_claim_by_farm; eauto.
  - unfold claim_reward_by_seed in H. inv. subst. eapply book_claim_by_seed; eauto.
  - unfold remove_user_rps_by_farm in H. inv. case_bool_decide; inv; subst; [apply same_book_refl|]. eapply book_remove_rps; eauto.
  - unfold withdraw_seed in H. inv. subst. eapply book_seed_withdraw; eauto.
  - destruct (withdraw_reward _ _ _ _ _) as [[c1 sent]|] eqn:Hw; [|discriminate]. cbn [mbind option_bind] in H. injection H as <- _.
    apply withdraw_reward_Some in Hw as (r & r' & Hr & Hs & _ & _ & ->). eapply same_book_upd; [exact Hr|reflexivity| |done|done].
    unfold fr_sub_reward in Hs. destruct (fr_rewards r !! token); [|discriminate]. cbn [mbind option_bind] in Hs. inv. destruct (_ =? 0); inv; subst; done.
Qed.

Lemma register_book c a am c' : register_account c a am = Some c' ->
  amts c' = <[a := mget (amts c) a + am]> (amts c) /\
  fs_count c' = fs_count c + match fs_farmers c !! a with Some _ => 0 | None => 1 end.
Proof.
  unfold register_account, mget, amts. intros H. rewrite lookup_fmap. destruct (fs_farmers c !! a) as [r|]; inv; subst.
  - cbn. rewrite fmap_insert. cbn. split; [done|lia].
  - cbn. rewrite fmap_insert. cbn. split; done.
Qed.
Lemma storage_deposit_book c a att ro c' : storage_deposit c a att ro = Some c' ->
  exists n, amts c' = <[a := mget (amts c) a + n]> (amts c) /\ att = n + storage_deposit_refund c a att ro /\
  fs_count c' = fs_count c + match fs_farmers c !! a with Some _ => 0 | None => 1 end.
Proof.
  unfold storage_deposit, storage_deposit_refund. intros H. destruct (fs_running c); [|discriminate]. cbn [ensure mbind option_bind] in H.
  destruct (farmer_storage c a) as [locked dep]. destruct (dep =? 0).
  - destruct (N.leb_spec min_storage_usage att) as [Hle|]; [|discriminate]. cbn [ensure mbind option_bind] in H.
    apply register_book in H as (E1 & E2). eexists. split; [exact E1|]. split; [|exact E2]. destruct ro; lia.
  - inv. eapply register_book in H as (E1 & E2). eexists. split; [exact E1|]. split; [lia|exact E2].
Qed.
Lemma storage_withdraw_book c a att am c' n : storage_withdraw c a att am = Some (c', n) ->
  exists r, fs_farmers c !! a = Some r /\ att = 1 /\ fs_running c = true /\ fr_storage_usage r + n <= fr_amount r /\
    n = default (fr_amount r - fr_storage_usage r) am /\
    c' = fs_set_farmers c (<[a := fr_set_amount r (fr_amount r - n)]> (fs_farmers c)).
Proof.
  unfold storage_withdraw, farmer_storage. intros H. destruct (fs_farmers c !! a) as [r|] eqn:Hr; [|inv; discriminate].
  cbn [mbind option_bind] in H. inv. bool_inv. subst. exists r. split_and!; try done; lia.
Qed.
Lemma storage_unregister_book c a att c' n : storage_unregister c a att = Some (c', n) ->
  att = 1 /\ fs_running c = true /\
  ((fs_farmers c !! a = None /\ c' = c /\ n = 0) \/
   exists r, fs_farmers c !! a = Some r /\ n = fr_amount r /\ fr_rewards r = ∅ /\ fr_seeds r = ∅ /\ 1 <= fs_count c /\
     c' = fs_set_count (fs_set_farmers c (delete a (fs_farmers c))) (fs_count c - 1)).
Proof.
  unfold storage_unregister. intros H. destruct (fs_farmers c !! a) as [r|] eqn:Hr; inv; bool_inv; subst; split_and!; auto.
  right. exists r. split_and!; auto; lia.
Qed.

(** Events other than calls leave the recorded NEAR alone. *)
Lemma step_finv w now : winv w -> w_now w <= now -> finv now (w_c w).
Proof. intros (Hi & _) Hn. now apply (finv_mono (w_now w)). Qed.
Lemma fstep_call w now a x w' : fstep w (EvCall now a x) = Some w' ->
  w_now w <= now /\ exists p, fcall_exec now (w_c w) a x = Some (w_c w', p).
Proof.
  intros H. cbn [fstep] in H. destruct (w_tick w now) eqn:Ht; [|discriminate]. cbn [mbind option_bind] in H. apply w_tick_Some in Ht as [Hn _].
  split; [done|]. destruct (fcall_exec now (w_c w) a x) as [[c' p]|]; [|discriminate]. cbn [mbind option_bind] in H.
  exists p. destruct p; injection H as <-; done.
Qed.
Lemma book_step w e w' : winv w -> fstep w e = Some w' ->
  match e with
  | EvCall _ _ x => is_storage x = false -> same_book (w_c w) (w_c w')
  | EvToken _ t _ am (Some fid) =>
      amts (w_c w') = amts (w_c w) /\ fs_count (w_c w') = fs_count (w_c w) /\
      fs_info (w_c w') = <[t := mget (fs_info (w_c w)) t + am]> (fs_info (w_c w)) /\
      exists f, fs_farms (w_c w) !! fid = Some f /\ t_reward (f_terms f) = t
  | _ => same_book (w_c w) (w_c w')
  end.
Proof.
  intros Hw H. destruct e as [now a x|now token a am msg|token am|i ok|now i].
  - intros Hx. apply fstep_call in H as (Hn & p & H). eapply book_call; [eapply step_finv|exact H|exact Hx]; eauto.
  - cbn [fstep] in H. destruct (w_tick w now) eqn:Ht; [|discriminate]. cbn [mbind option_bind] in H. apply w_tick_Some in Ht as [Hn _].
    destruct (ft_on_transfer now (w_c w) token a am msg) as [c'|] eqn:Hc; [|discriminate]. cbn [mbind option_bind] in H.
    injection H as <-. cbn [w_c]. unfold ft_on_transfer in Hc. destruct msg as [fid|].
    + destruct (fs_running (w_c w)); [|discriminate]. cbn [ensure mbind option_bind] in Hc.
      destruct (fs_farms (w_c w) !! fid) as [f|]; [|discriminate]. cbn [mbind option_bind] in Hc.
      destruct (String.eqb_spec (t_reward (f_terms f)) token) as [Et|]; [|discriminate]. cbn [ensure mbind option_bind] in Hc.
      inv. subst. cbn. split_and!; eauto.
    + inv. subst. eapply book_seed_deposit; [eapply step_finv|]; eauto.
  - cbn [fstep] in H. injection H as <-. apply same_book_refl.
  - cbn [fstep] in H. destruct (w_pend w !! i) as [p|]; [|discriminate]. cbn [mbind option_bind] in H. destruct (pend_res p); [discriminate|].
    destruct (if ok then _ else _); [|discriminate]. cbn [mbind option_bind] in H. injection H as <-. apply same_book_refl.
  - cbn [fstep] in H. destruct (w_tick w now) eqn:Ht; [|discriminate]. cbn [mbind option_bind] in H. apply w_tick_Some in Ht as [Hn _].
    destruct (w_pend w !! i) as [p|]; [|discriminate]. cbn [mbind option_bind] in H.
    destruct (pend_res p) as [[|]|]; [| |discriminate]; injection H as <-; [apply same_book_refl|]. cbn [w_c].
    destruct (callback_restore now (w_c w) p) as [c'|] eqn:Hcb; [|apply same_book_refl]. cbn [default Datatypes.id].
    destruct p as [t b m res|s' b m res]; cbn in Hcb.
    + apply restore_reward_Some in Hcb as (r & Hr & ->). eapply same_book_upd; [exact Hr|reflexivity|done|done|done].
    + eapply book_seed_deposit; [eapply step_finv|]; eauto.
Qed.
Lemma same_book_paid c c' : amts c' = amts c -> paid_total c' = paid_total c /\ forall a, paid_by c' a = paid_by c a.
Proof. intros E. split; [now rewrite !paid_total_amts, E|]. intros a. now rewrite !paid_by_amts, E. Qed.

(** ** C72: NEAR *)
Lemma step_amts w e w' : winv w -> fstep w e = Some w' ->
  match e with EvCall _ _ x => is_storage x = false | _ => True end -> amts (w_c w') = amts (w_c w).
Proof.
  intros Hw Hs Hx. pose proof (book_step _ _ _ Hw Hs) as Hb. destruct e as [now b x|now t a am [fid|]| | |]; try apply Hb; done.
Qed.
Lemma near_call now c a x c' p :
  finv now c -> fcall_exec now c a x = Some (c', p) ->
  paid_total c + f_attached x = paid_total c' + f_sent c a x + f_forwarded x + f_kept x.
Proof.
  intros Hi H. destruct (is_storage x) eqn:Hx.
  - destruct x; try discriminate Hx; cbn [fcall_exec] in H; cbn [f_attached f_sent f_forwarded f_kept].
    + destruct (storage_deposit c a0 attached registration_only) as [c1|] eqn:Hs; [|discriminate]. injection H as <- _.
      apply storage_deposit_book in Hs as (n & E1 & E2 & _). rewrite !paid_total_amts, E1.
      pose proof (msum_insert (fun (_ : AccountId) (x : N) => x) (amts c) a0 (mget (amts c) a0 + n)) as E. cbn beta in E.
      assert (contrib (fun (_ : AccountId) (x : N) => x) a0 (amts c !! a0) = mget (amts c) a0) as E3
        by (unfold mget; now destruct (amts c !! a0)).
      rewrite E3 in E. lia.
    + destruct (storage_withdraw c a attached amount) as [[c1 n]|] eqn:Hs; [|discriminate]. injection H as <- _.
      apply storage_withdraw_book in Hs as (r & Hr & -> & _ & Hle & _ & ->).
      unfold paid_total. cbn [fs_set_farmers fs_farmers].
      pose proof (msum_insert_gen (fun (_ : AccountId) r => fr_amount r) (fs_farmers c) a (fr_set_amount r (fr_amount r - n)) r Hr) as E.
      cbn beta in E. cbn [fr_set_amount fr_amount] in E. lia.
    + destruct (storage_unregister c a attached) as [[c1 n]|] eqn:Hs; [|discriminate]. injection H as <- _.
      apply storage_unregister_book in Hs as (-> & _ & [(Hn & -> & ->)|(r & Hr & -> & _ & _ & _ & ->)]); [lia|].
      unfold paid_total. cbn [fs_set_count fs_set_farmers fs_farmers].
      rewrite (msum_delete (fun (_ : AccountId) r => fr_amount r) (fs_farmers c) a r Hr). lia.
  - pose proof (book_call _ _ _ _ _ _ Hi H Hx) as [Hb _]. apply same_book_paid in Hb as [-> _].
    destruct x; try discriminate Hx; cbn [f_attached f_sent f_forwarded f_kept]; try lia; cbn [fcall_exec] in H.
    + unfold create_simple_farm, create_simple_farm_refund in *. inv. bool_inv. lia.
    + unfold set_running in H. inv. bool_inv. lia.
    + unfold set_running in H. inv. bool_inv. lia.
    + unfold withdraw_seed in H. inv. bool_inv. lia.
    + destruct (withdraw_reward _ _ _ _ _) as [[c1 sent]|] eqn:Hw; [|discriminate].
      apply withdraw_reward_Some in Hw as (r & r' & _ & _ & -> & _). lia.
Qed.
Theorem C72_call w now a x w' :
  freachable w -> fstep w (EvCall now a x) = Some w' ->
  paid_total (w_c w) + f_attached x = paid_total (w_c w') + f_sent (w_c w) a x + f_forwarded x + f_kept x.
Proof. intros Hw H. apply fstep_call in H as (Hn & p & H). eapply near_call; [eapply step_finv|]; eauto using winv_reachable. Qed.
Print Assumptions C72_call.

(** Nothing else changes what is recorded, and nobody but a farmer gets the NEAR of that farmer. *)
Theorem C72_only_own w e w' a :
  freachable w -> fstep w e = Some w' -> paid_by (w_c w') a < paid_by (w_c w) a ->
  exists now x, e = EvCall now a x /\ paid_by (w_c w) a = paid_by (w_c w') a + f_sent (w_c w) a x.
Proof.
  intros Hr H Hlt. apply winv_reachable in Hr. pose proof (step_amts _ _ _ Hr H) as Hb.
  assert (Hno : amts (w_c w') = amts (w_c w) -> False) by (intros E; apply same_book_paid in E as [_ E]; rewrite E in Hlt; lia).
  destruct e as [now b x| | | |]; try (exfalso; apply Hno, Hb; exact I).
  destruct (is_storage x) eqn:Hx; [|exfalso; apply Hno, Hb; reflexivity]. clear Hb Hno.
  apply fstep_call in H as (Hn & p & H). exists now, x.
  destruct x; try discriminate Hx; cbn [fcall_exec] in H; cbn [f_sent].
  - exfalso. destruct (storage_deposit (w_c w) a0 attached registration_only) as [c1|] eqn:Hs; [|discriminate]. injection H as -> _.
    apply storage_deposit_book in Hs as (n & E1 & _). rewrite !paid_by_amts, E1 in Hlt.
    destruct (decide (a0 = a)) as [->|Hne]; [rewrite mget_insert in Hlt; lia|rewrite mget_insert_ne in Hlt by done; lia].
  - destruct (storage_withdraw (w_c w) b attached amount) as [[c1 n]|] eqn:Hs; [|discriminate]. injection H as -> _.
    pose proof Hs as Hs0. apply storage_withdraw_book in Hs as (r & Hr' & -> & _ & Hle & _ & Ec). clear Hx; rewrite Ec in Hlt |- *. unfold paid_by in *. cbn [fs_set_farmers fs_farmers] in *.
    destruct (decide (b = a)) as [->|Hne]; [|rewrite lookup_insert_ne in Hlt by done; lia].
    split; [done|]. rewrite Hs0, lookup_insert, Hr'. cbn [fr_set_amount fr_amount]. lia.
  - destruct (storage_unregister (w_c w) b attached) as [[c1 n]|] eqn:Hs; [|discriminate]. injection H as -> _.
    pose proof Hs as Hs0. apply storage_unregister_book in Hs as (-> & _ & [(Hn' & Ec & ->)|(r & Hr' & -> & _ & _ & _ & Ec)]); [exfalso; rewrite Ec in Hlt; lia|clear Hx; rewrite Ec in Hlt |- *].
    unfold paid_by in *. cbn [fs_set_count fs_set_farmers fs_farmers] in *.
    destruct (decide (b = a)) as [->|Hne]; [|exfalso; rewrite lookup_delete_ne in Hlt by done; revert Hlt; apply N.lt_irrefl].
    split; [done|]. rewrite Hs0, lookup_delete, Hr'. lia.
Qed.
Print Assumptions C72_only_own.

(** The recorded NEAR is there, in every history. *)
Theorem C72_backed owner h0 w h :
  f_ledger (fw_new owner) h0 w h -> h0 + paid_total (w_c w) <= h.
Proof.
  intros H. assert (winv w /\ h0 + paid_total (w_c w) <= h) as [_ ?]; [|done].
  induction H as [|w h e w' _ [Hw IH] Hs].
  - split; [apply winv_new|]. unfold paid_total. cbn. rewrite msum_empty. lia.
  - split; [eapply winv_step; eauto|]. destruct e as [now a x| | | |].
    + apply fstep_call in Hs as (Hn & p & Hs). cbn [f_near_in f_near_out].
      pose proof (near_call _ _ _ _ _ _ (step_finv _ _ Hw Hn) Hs) as E. destruct x; cbn [f_kept f_forwarded] in *; lia.
    + pose proof (step_amts _ _ _ Hw Hs I) as Hb. apply same_book_paid in Hb as [-> _]. cbn. lia.
    + pose proof (step_amts _ _ _ Hw Hs I) as Hb. apply same_book_paid in Hb as [-> _]. cbn. lia.
    + pose proof (step_amts _ _ _ Hw Hs I) as Hb. apply same_book_paid in Hb as [-> _]. cbn. lia.
    + pose proof (step_amts _ _ _ Hw Hs I) as Hb. apply same_book_paid in Hb as [-> _]. cbn. lia.
Qed.
Print Assumptions C72_backed.
(** Every payment can be made from what is left for it. *)
Theorem C72_affordable owner h0 w h e w' :
  f_ledger (fw_new owner) h0 w h -> fstep w e = Some w' -> f_near_out w e + h0 <= h + f_near_in e.
Proof.
  intros Hl Hs. pose proof (C72_backed _ _ _ _ Hl) as Hb.
  assert (Hw : winv w). { clear Hs Hb. induction Hl; [apply winv_new|eapply winv_step; eauto]. }
  destruct e as [now a x| | | |]; cbn [f_near_in f_near_out]; try lia.
  apply fstep_call in Hs as (Hn & p & Hs).
  pose proof (near_call _ _ _ _ _ _ (step_finv _ _ Hw Hn) Hs) as E. destruct x; cbn [f_kept f_forwarded] in *; lia.
Qed.
Print Assumptions C72_affordable.

(** Farmers get their NEAR back: what does not pay for storage at any time, and all of it when they leave.  The deposit is a u128. *)
Theorem C72_withdrawable w now a r n :
  freachable w -> fs_running (w_c w) = true -> w_now w <= now < W64 -> fs_farmers (w_c w) !! a = Some r ->
  0 < fr_amount r < W128 -> fr_storage_usage r + n <= fr_amount r ->
  exists w', fstep w (EvCall now a (CStorageWithdraw 1 (Some n))) = Some w' /\
    f_sent (w_c w) a (CStorageWithdraw 1 (Some n)) = n /\ paid_by (w_c w') a = fr_amount r - n.
Proof.
  intros _ Hrun [Hn1 Hn2] Hr [H0 HW] Hle.
  assert (E : storage_withdraw (w_c w) a 1 (Some n) =
    Some (fs_set_farmers (w_c w) (<[a := fr_set_amount r (fr_amount r - n)]> (fs_farmers (w_c w))), n)).
  { unfold storage_withdraw, farmer_storage. rewrite Hr, Hrun. rewrite N.eqb_refl. cbn [ensure mbind option_bind].
    rewrite (proj2 (N.ltb_lt _ _)) by done. rewrite (proj2 (N.leb_le _ _)) by lia. cbn [ensure mbind option_bind default Datatypes.id].
    rewrite cadd_intro by lia. cbn [mbind option_bind]. rewrite (proj2 (N.leb_le _ _)) by lia. cbn [ensure mbind option_bind].
    rewrite csub_intro by lia. reflexivity. }
  eexists. split; [|split].
  - cbn [fstep fcall_exec]. unfold w_tick. rewrite (proj2 (N.leb_le _ _)), (proj2 (N.ltb_lt _ _)) by done. cbn [andb ensure mbind option_bind].
    rewrite E. cbn [mbind option_bind]. reflexivity.
  - cbn [f_sent]. now rewrite E.
  - unfold paid_by. cbn [w_c fs_set_farmers fs_farmers]. now rewrite lookup_insert.
Qed.
Print Assumptions C72_withdrawable.

(** ** C73: the statistics are exact *)
Lemma count_step w e w' : winv w -> fs_count (w_c w) = N.of_nat (size (fs_farmers (w_c w))) -> fstep w e = Some w' ->
  fs_count (w_c w') = N.of_nat (size (fs_farmers (w_c w'))).
Proof.
  intros Hw IH Hs. pose proof (book_step _ _ _ Hw Hs) as Hb. rewrite <- !size_amts in *.
  destruct e as [now a x|now t a am [fid|]| | |]; try (destruct Hb as (E1 & E2 & _); rewrite E1, E2; exact IH).
  destruct (is_storage x) eqn:Hx; [|destruct Hb as (E1 & E2 & _); [done|]; rewrite E1, E2; exact IH]. clear Hb.
  apply fstep_call in Hs as (_ & p & H). destruct x; try discriminate Hx; cbn [fcall_exec] in H.
  - destruct (storage_deposit (w_c w) a0 attached registration_only) as [c1|] eqn:Hs; [|discriminate]. injection H as -> _.
    apply storage_deposit_book in Hs as (n & E1 & _ & E2). rewrite E1, E2, IH.
    assert (El : amts (w_c w) !! a0 = fr_amount <$> fs_farmers (w_c w) !! a0) by apply lookup_fmap.
    rewrite map_size_insert, El. destruct (fs_farmers (w_c w) !! a0) as [r|]; cbn [fmap option_fmap option_map]; unfold Datatypes.id; lia.
  - destruct (storage_withdraw (w_c w) a attached amount) as [[c1 n]|] eqn:Hs; [|discriminate]. injection H as -> _.
    apply storage_withdraw_book in Hs as (r & Hr' & -> & _ & Hle & _ & Ec). rewrite Ec. unfold amts. cbn [fs_set_farmers fs_farmers fs_count].
    rewrite fmap_insert, map_size_insert, lookup_fmap, Hr'. exact IH.
  - destruct (storage_unregister (w_c w) a attached) as [[c1 n]|] eqn:Hs; [|discriminate]. injection H as -> _.
    apply storage_unregister_book in Hs as (-> & _ & [(Hn' & Ec & ->)|(r & Hr' & -> & _ & _ & Hc & Ec)]); rewrite Ec; [exact IH|].
    unfold amts. cbn [fs_set_count fs_set_farmers fs_farmers fs_count]. rewrite fmap_delete, map_size_delete, lookup_fmap, Hr'.
    fold (amts (w_c w)). cbn [fmap option_fmap option_map]. lia.
Qed.
Theorem C73_farmers w : freachable w -> fs_count (w_c w) = N.of_nat (size (fs_farmers (w_c w))).
Proof.
  intros (owner & es & H). assert (Hw : winv (fw_new owner)) by apply winv_new.
  assert (H0 : fs_count (w_c (fw_new owner)) = N.of_nat (size (fs_farmers (w_c (fw_new owner))))) by (cbn; now rewrite map_size_empty).
  induction H as [|w e w1 es w2 Hs _ IH]; [done|]. apply IH; [eapply winv_step; eauto|eapply count_step; eauto].
Qed.
Print Assumptions C73_farmers.

Theorem C72_leave w now a r :
  freachable w -> fs_running (w_c w) = true -> w_now w <= now < W64 -> fs_farmers (w_c w) !! a = Some r ->
  fr_rewards r = ∅ -> fr_seeds r = ∅ ->
  exists w', fstep w (EvCall now a (CStorageUnregister 1)) = Some w' /\
    f_sent (w_c w) a (CStorageUnregister 1) = fr_amount r /\ fs_farmers (w_c w') !! a = None.
Proof.
  intros Hw Hrun [Hn1 Hn2] Hr H1 H2.
  assert (Hc : 1 <= fs_count (w_c w)).
  { rewrite (C73_farmers w Hw).
    destruct (size (fs_farmers (w_c w))) as [|k] eqn:Hk; [|lia]. apply map_size_empty_inv in Hk. rewrite Hk, lookup_empty in Hr. discriminate. }
  assert (E : storage_unregister (w_c w) a 1 = Some (fs_set_count (fs_set_farmers (w_c w) (delete a (fs_farmers (w_c w)))) (fs_count (w_c w) - 1), fr_amount r)).
  { unfold storage_unregister. rewrite Hr, Hrun, N.eqb_refl. cbn [ensure mbind option_bind].
    rewrite !bool_decide_true by done. cbn [ensure mbind option_bind]. rewrite csub_intro by done. reflexivity. }
  eexists. split; [|split].
  - cbn [fstep fcall_exec]. unfold w_tick. rewrite (proj2 (N.leb_le _ _)), (proj2 (N.ltb_lt _ _)) by done. cbn [andb ensure mbind option_bind].
    rewrite E. cbn [mbind option_bind]. reflexivity.
  - cbn [f_sent]. now rewrite E.
  - cbn [w_c fs_set_count fs_set_farmers fs_farmers]. apply lookup_delete.
Qed.
Print Assumptions C72_leave.

Definition all_farms (c : FState) : gmap FarmId Farm := fs_farms c ∪ fs_outdated c.
Lemma all_farms_known c fid : all_farms c !! fid = known_farm c fid.
Proof.
  unfold all_farms, known_farm. rewrite lookup_union. destruct (fs_farms c !! fid), (fs_outdated c !! fid); done.
Qed.
Lemma msum_union {K V} `{Countable K} (g : K -> V -> N) (m1 m2 : gmap K V) :
  m1 ##ₘ m2 -> msum g (m1 ∪ m2) = msum g m1 + msum g m2.
Proof.
  induction m1 as [|i x m Hi IH] using map_ind; intros Hd.
  - rewrite msum_empty, (left_id_L ∅ (∪)). lia.
  - apply map_disjoint_insert_l in Hd as [Hn Hd]. rewrite <- insert_union_l, !msum_insert_None; auto.
    + rewrite IH by done. lia.
    + apply lookup_union_None. done.
Qed.
Lemma farms_total_all now c t : finv now c -> farms_total c t = msum (fun _ f => farm_total t f) (all_farms c).
Proof.
  intros (_ & _ & H3 & _). unfold farms_total, all_farms. rewrite msum_union; [done|].
  apply map_disjoint_spec. intros fid f g Hf Hg. destruct (H3 fid g Hg) as (_ & _ & E & _). congruence.
Qed.
Lemma info_step w e w' t : winv w -> fstep w e = Some w' ->
  reward_info (w_c w') t + farms_total (w_c w) t = farms_total (w_c w') t + reward_info (w_c w) t /\
  reward_info (w_c w') t = reward_info (w_c w) t + brought t [e].
Proof.
  intros Hw Hs. pose proof (book_step _ _ _ Hw Hs) as Hb. destruct (winv_step _ _ _ Hw Hs) as (Hw' & Hev).
  assert (Hi : fs_info (w_c w') = match e with EvToken _ t _ am (Some fid) => <[t := mget (fs_info (w_c w)) t + am]> (fs_info (w_c w)) | _ => fs_info (w_c w) end).
  { destruct e as [now a x|now u a am [fid|]| | |]; try exact (proj2 (proj2 Hb)); try exact (proj1 (proj2 (proj2 Hb))).
    destruct (is_storage x) eqn:Hx; [|destruct (Hb eq_refl) as (_ & _ & Ei); exact Ei]. clear Hb.
    apply fstep_call in Hs as (_ & p & H). destruct x; try discriminate Hx; cbn [fcall_exec] in H.
    - unfold storage_deposit in H. destruct (farmer_storage _ _) as [l d]. destruct (fs_running (w_c w)); [|discriminate]. cbn [ensure mbind option_bind] in H.
      assert (Hreg : forall am c', register_account (w_c w) a0 am = Some c' -> fs_info c' = fs_info (w_c w)).
      { intros am c' Hr. unfold register_account in Hr. destruct (fs_farmers (w_c w) !! a0); inv; subst; done. }
      destruct (d =? 0); inv; eauto. all: subst; eauto.
    - destruct (storage_withdraw (w_c w) a attached amount) as [[c1 n]|] eqn:Hs; [|discriminate]. injection H as -> _.
      apply storage_withdraw_book in Hs as (r & Hr' & -> & _ & Hle & _ & Ec). now rewrite Ec.
    - destruct (storage_unregister (w_c w) a attached) as [[c1 n]|] eqn:Hs; [|discriminate]. injection H as -> _.
      apply storage_unregister_book in Hs as (-> & _ & [(Hn' & Ec & ->)|(r & Hr' & -> & _ & _ & Hc & Ec)]); now rewrite Ec. }
  assert (E2 : reward_info (w_c w') t = reward_info (w_c w) t + brought t [e]).
  { unfold reward_info. rewrite Hi. unfold brought. cbn [foldr]. destruct e as [now a x|now u a am [fid|]| | |]; try lia.
    destruct (String.eqb_spec u t) as [->|Hne]; [rewrite mget_insert; lia|rewrite mget_insert_ne by done; lia]. }
  split; [|exact E2]. rewrite E2. destruct Hw as (Hf & _), Hw' as (Hf' & _).
  rewrite (farms_total_all _ _ t Hf), (farms_total_all _ _ t Hf'). clear E2 Hi.
  destruct Hev as (V1 & V2 & V3).
  assert (Hk : forall fid, contrib (fun _ f => farm_total t f) fid (all_farms (w_c w') !! fid) =
     contrib (fun _ f => farm_total t f) fid (all_farms (w_c w) !! fid) +
     match known_farm (w_c w) fid with Some f => if String.eqb (t_reward (f_terms f)) t then dep1 fid e else 0 | None => 0 end).
  { intros fid. rewrite !all_farms_known. destruct (known_farm (w_c w) fid) as [f|] eqn:Hk.
    - destruct (V1 fid f Hk) as (f' & -> & L1 & _ & _ & L2 & _). cbn [contrib]. unfold farm_total. rewrite L1, L2.
      destruct (String.eqb _ _); lia.
    - destruct (known_farm (w_c w') fid) as [f'|] eqn:Hk'; [|done]. destruct (V2 fid f' Hk Hk') as (_ & tm & ->).
      cbn [contrib]. unfold farm_total. cbn [farm_new f_reward f_terms]. destruct (String.eqb _ _); lia. }
  destruct e as [now a x|now u a am [fid|]| | |];
    try (rewrite (msum_pointwise _ (all_farms (w_c w)) (all_farms (w_c w'))); [cbn [brought foldr]; lia|];
         intros fid'; rewrite Hk; cbn [dep1]; destruct (known_farm (w_c w) fid') as [f|]; [destruct (String.eqb _ _)|]; lia).
  destruct Hb as (_ & _ & _ & f & Hf0 & Et).
  rewrite (msum_pointwise_one _ (all_farms (w_c w)) (all_farms (w_c w')) fid (if String.eqb u t then am else 0)).
  - unfold brought. cbn [foldr]. destruct (String.eqb u t); lia.
  - intros fid'. rewrite Hk. cbn [dep1]. destruct (decide (fid = fid')) as [<-|Hne].
    + unfold known_farm. rewrite Hf0, Et. destruct (String.eqb u t); lia.
    + destruct (known_farm (w_c w) fid') as [g|]; [destruct (String.eqb _ _)|]; lia.
Qed.
Theorem C73_rewards owner es w t :
  frun (fw_new owner) es w -> reward_info (w_c w) t = brought t es /\ reward_info (w_c w) t = farms_total (w_c w) t.
Proof.
  intros H. assert (Hgo : forall w0, winv w0 -> frun w0 es w ->
    reward_info (w_c w) t = reward_info (w_c w0) t + brought t es /\
    reward_info (w_c w) t + farms_total (w_c w0) t = farms_total (w_c w) t + reward_info (w_c w0) t).
  { clear H. intros w0 Hw Hr. induction Hr as [w|w e w1 es w2 Hs _ IH].
    - cbn [brought foldr]. lia.
    - destruct (info_step _ _ _ t Hw Hs) as (E1 & E2). destruct IH as (I1 & I2); [eapply winv_step; eauto|].
      assert (brought t (e :: es) = brought t [e] + brought t es) as ->.
      { unfold brought. cbn [foldr]. destruct e as [| ? u ? ? [|]| | |]; try lia. destruct (String.eqb _ _); lia. }
      lia. }
  destruct (Hgo _ (winv_new owner) H) as (E1 & E2).
  assert (E3 : reward_info (w_c (fw_new owner)) t = 0) by reflexivity.
  assert (E4 : farms_total (w_c (fw_new owner)) t = 0) by reflexivity. lia.
Qed.
Print Assumptions C73_rewards.

(** ** C74: storage *)
Lemma usage_mono r r' :
  (size (fr_rewards r) <= size (fr_rewards r'))%nat -> fr_seeds r' = fr_seeds r -> fr_count r <= fr_count r' ->
  fr_storage_usage r <= fr_storage_usage r'.
Proof.
  intros H1 H2 H3. unfold fr_storage_usage. rewrite H2. apply N.mul_le_mono_r.
  assert (N.of_nat (size (fr_rewards r)) <= N.of_nat (size (fr_rewards r'))) by lia. unfold MAX_ACCOUNT_LENGTH. lia.
Qed.
Lemma claim_from_farm_usage now c a S fid c' r :
  fs_farmers c !! a = Some r -> claim_from_farm now c a S fid = Some c' ->
  exists r', fs_farmers c' !! a = Some r' /\ fr_amount r' = fr_amount r /\ fr_storage_usage r <= fr_storage_usage r'.
Proof.
  intros Hr H. unfold claim_from_farm in H. rewrite Hr in H. cbn [mbind option_bind] in H.
  destruct (fs_farms c !! fid) as [f|]; [|discriminate]. cbn [mbind option_bind] in H.
  destruct (claim_user_reward _ _ _ _ _) as [[[f2 rps'] am]|]; [|discriminate].
  unfold set_rps in H. cbn [mbind option_bind fs_set_farms fs_farmers fs_rps] in H. rewrite Hr in H. cbn [mbind option_bind] in H.
  match type of H with context [match fs_rps c !! (a, fid) with Some _ => ?x | None => ?y end] =>
    destruct (match fs_rps c !! (a, fid) with Some _ => x | None => y end) as [n|] eqn:Hn; [|discriminate] end.
  assert (Hle : fr_count r <= n) by (destruct (fs_rps c !! (a, fid)); [injection Hn as <-; lia|apply cadd_Some in Hn; lia]).
  cbn [mbind option_bind fs_set_rps fs_set_farmers fs_set_farms fs_farmers] in H. rewrite lookup_insert in H. cbn [mbind option_bind] in H.
  destruct (0 <? am).
  - destruct (fr_add_reward _ _ _) as [r2|] eqn:Ha; [|discriminate]. cbn [mbind option_bind] in H. injection H as <-. cbn [fs_set_rps fs_set_farms fs_set_farmers fs_farmers].
    exists r2. rewrite lookup_insert. unfold fr_add_reward in Ha. inv. subst. split_and!; try done.
    apply usage_mono; cbn [fr_set_rewards fr_set_count fr_rewards fr_seeds fr_count]; [|done|done].
    rewrite map_size_insert. destruct (fr_rewards r !! _); unfold Datatypes.id; lia.
  - injection H as <-. cbn [fs_set_rps fs_set_farms fs_set_farmers fs_farmers]. rewrite lookup_insert. eexists. split_and!; [reflexivity|done|]. now apply usage_mono.
Qed.
Lemma claim_from_farms_usage now a S l : forall c c' r,
  fs_farmers c !! a = Some r -> claim_from_farms now c a S l = Some c' ->
  exists r', fs_farmers c' !! a = Some r' /\ fr_amount r' = fr_amount r /\ fr_storage_usage r <= fr_storage_usage r'.
Proof.
  induction l as [|fid l IH]; intros c c' r Hr H; cbn [claim_from_farms] in H; [injection H as <-; exists r; split_and!; auto; lia|].
  destruct (claim_from_farm now c a S fid) as [c1|] eqn:H1; [|discriminate]. cbn [mbind option_bind] in H.
  destruct (claim_from_farm_usage _ _ _ _ _ _ _ Hr H1) as (r1 & Hr1 & E1 & L1).
  destruct (IH _ _ _ Hr1 H) as (r2 & Hr2 & E2 & L2). exists r2. split_and!; [done|congruence|lia].
Qed.
Lemma assert_covered c a u : assert_storage_usage c a = Some u -> covered c a.
Proof.
  unfold assert_storage_usage, farmer_storage, covered. destruct (fs_farmers c !! a) as [r|]; intros H; inv; bool_inv; [|lia].
  exists r. split; [done|]. destruct H; lia.
Qed.
Lemma seed_deposit_usage now c s a am c' r :
  fs_farmers c !! a = Some r -> seed_deposit now c s a am = Some c' ->
  exists r', fs_farmers c' !! a = Some r' /\ fr_amount r' = fr_amount r /\ fr_storage_usage r <= fr_storage_usage r'.
Proof.
  intros Hr H. unfold seed_deposit in H. destruct (claim_by_seed now c a s) as [c1|] eqn:Hc; [|discriminate]. cbn [mbind option_bind] in H.
  assert (exists r', fs_farmers c1 !! a = Some r' /\ fr_amount r' = fr_amount r /\ fr_storage_usage r <= fr_storage_usage r') as (r1 & Hr1 & E1 & L1).
  { unfold claim_by_seed in Hc. rewrite Hr in Hc. cbn [mbind option_bind] in Hc.
    destruct (fs_seeds c !! s); [|injection Hc as <-; exists r; split_and!; auto; lia]. eapply claim_from_farms_usage; eauto. }
  destruct (fs_seeds c1 !! s) as [sd|]; [|discriminate]. cbn [mbind option_bind] in H.
  destruct (cadd _ _ _) as [v|]; [|discriminate]. cbn [mbind option_bind fs_set_seeds fs_farmers] in H. rewrite Hr1 in H. cbn [mbind option_bind] in H.
  destruct (fr_add_seed r1 s am) as [r2|] eqn:Ha; [|discriminate]. cbn [mbind option_bind] in H. injection H as <-. cbn [fs_set_farmers fs_farmers].
  rewrite lookup_insert. exists r2. unfold fr_add_seed in Ha. destruct (0 <? am); inv; subst; split_and!; auto.
  etransitivity; [exact L1|]. unfold fr_storage_usage. cbn [fr_set_seeds fr_seeds fr_rewards fr_count]. apply N.mul_le_mono_r.
  assert (forall x, N.of_nat (size (fr_seeds r1)) <= N.of_nat (size (<[s:=x]> (fr_seeds r1)))) as Hsz.
  { intros x. rewrite map_size_insert. destruct (fr_seeds r1 !! s); unfold Datatypes.id; lia. }
  match goal with |- context [<[s:=?x]> (fr_seeds r1)] => specialize (Hsz x) end. unfold MAX_ACCOUNT_LENGTH. lia.
Qed.
Lemma usage_pos r : 0 < fr_storage_usage r.
Proof. unfold fr_storage_usage. apply N.mul_pos_pos; [unfold MIN_FARMER_LENGTH, MAX_ACCOUNT_LENGTH; lia|reflexivity]. Qed.
Lemma usage_new n : fr_storage_usage (farmer_new n) <= min_storage_usage.
Proof. unfold fr_storage_usage, farmer_new. cbn [fr_rewards fr_seeds fr_count]. rewrite !map_size_empty. vm_compute. discriminate. Qed.

(** No registered farmer is recorded without NEAR. *)
Definition all_paid (c : FState) : Prop := forall a x, amts c !! a = Some x -> 0 < x.
Lemma all_paid_step w e w' : winv w -> all_paid (w_c w) -> fstep w e = Some w' -> all_paid (w_c w').
Proof.
  intros Hw Hp Hs.
  assert (Hsame : amts (w_c w') = amts (w_c w) -> all_paid (w_c w')) by (intros E; unfold all_paid; now rewrite E).
  pose proof (step_amts _ _ _ Hw Hs) as Hb. destruct e as [now a x| | | |]; try (apply Hsame, Hb; exact I).
  destruct (is_storage x) eqn:Hx; [|apply Hsame, Hb; reflexivity]. clear Hb Hsame.
  apply fstep_call in Hs as (_ & p & H). destruct x; try discriminate Hx; cbn [fcall_exec] in H.
  - destruct (storage_deposit (w_c w) a0 attached registration_only) as [c1|] eqn:Hs; [|discriminate]. injection H as -> _.
    assert (exists n, amts (w_c w') = <[a0 := mget (amts (w_c w)) a0 + n]> (amts (w_c w)) /\ 0 < mget (amts (w_c w)) a0 + n) as (n & E & Hn).
    { unfold storage_deposit in Hs. destruct (fs_running (w_c w)); [|discriminate]. cbn [ensure mbind option_bind] in Hs.
      unfold farmer_storage in Hs. rewrite <- (paid_by_amts (w_c w) a0). unfold paid_by.
      assert (Hm : 0 < min_storage_usage) by reflexivity.
      destruct (fs_farmers (w_c w) !! a0) as [r|] eqn:Hr.
      - assert (0 < fr_amount r). { apply (Hp a0). unfold amts. now rewrite lookup_fmap, Hr. }
        destruct (N.eqb_spec (fr_amount r) 0); [lia|]. inv. apply register_book in Hs as (-> & _). rewrite <- (paid_by_amts (w_c w) a0). unfold paid_by. rewrite Hr.
        eexists. split; [reflexivity|lia].
      - cbn in Hs. destruct (N.leb_spec min_storage_usage attached); [|discriminate]. cbn [ensure mbind option_bind] in Hs.
        apply register_book in Hs as (-> & _). rewrite <- (paid_by_amts (w_c w) a0). unfold paid_by. rewrite Hr. eexists. split; [reflexivity|].
        destruct registration_only; lia. }
    intros b x. rewrite E. destruct (decide (a0 = b)) as [<-|Hne]; [rewrite lookup_insert; now intros [= <-]|rewrite lookup_insert_ne by done; apply Hp].
  - destruct (storage_withdraw (w_c w) a attached amount) as [[c1 n]|] eqn:Hs; [|discriminate]. injection H as -> _.
    apply storage_withdraw_book in Hs as (r & Hr' & -> & _ & Hle & _ & Ec). intros b x. rewrite Ec. unfold amts. cbn [fs_set_farmers fs_farmers].
    rewrite fmap_insert. destruct (decide (a = b)) as [<-|Hne]; [|rewrite lookup_insert_ne by done; apply Hp].
    rewrite lookup_insert. intros [= <-]. cbn [fr_set_amount fr_amount]. pose proof (usage_pos r). lia.
  - destruct (storage_unregister (w_c w) a attached) as [[c1 n]|] eqn:Hs; [|discriminate]. injection H as -> _.
    apply storage_unregister_book in Hs as (-> & _ & [(Hn' & Ec & ->)|(r & Hr' & -> & _ & _ & Hc & Ec)]); rewrite Ec; [exact Hp|].
    intros b x. unfold amts. cbn [fs_set_count fs_set_farmers fs_farmers]. rewrite fmap_delete. destruct (decide (a = b)) as [<-|Hne].
    + now rewrite lookup_delete.
    + rewrite lookup_delete_ne by done. apply Hp.
Qed.
Lemma all_paid_reachable w : freachable w -> all_paid (w_c w).
Proof.
  intros (owner & es & H). assert (Hw : winv (fw_new owner)) by apply winv_new.
  assert (H0 : all_paid (w_c (fw_new owner))) by (intros a x; unfold amts; cbn [fw_new w_c fs_new fs_farmers]; rewrite fmap_empty, lookup_empty; discriminate).
  induction H as [|w e w1 es w2 Hs _ IH]; [done|]. apply IH; [eapply winv_step; eauto|eapply all_paid_step; eauto].
Qed.

(** Claims, stakes, storage deposits and withdrawals leave the farmer with their storage paid. *)
Definition covers (e : fevent) : option AccountId :=
  match e with
  | EvCall _ a (CClaimFarm _) | EvCall _ a (CClaimSeed _) | EvCall _ a (CStorageWithdraw _ _) => Some a
  | EvCall _ _ (CStorageDeposit b _ _) => Some b
  | EvToken _ _ a _ None => Some a
  | _ => None
  end.
Theorem C74_covered w e w' a :
  freachable w -> fstep w e = Some w' -> covers e = Some a -> covered (w_c w') a.
Proof.
  intros Hr Hs He. pose proof (all_paid_reachable _ Hr) as Hp.
  destruct e as [now b x|now t b am [fid|]| | |]; try discriminate He.
  - apply fstep_call in Hs as (_ & p & H). destruct x; try discriminate He; injection He as ->; cbn [fcall_exec] in H.
    + destruct (storage_deposit (w_c w) a attached registration_only) as [c1|] eqn:Hs; [|discriminate]. injection H as -> _.
      unfold storage_deposit in Hs. destruct (fs_running (w_c w)); [|discriminate]. cbn [ensure mbind option_bind] in Hs.
      unfold farmer_storage in Hs. destruct (fs_farmers (w_c w) !! a) as [r|] eqn:Hf.
      * assert (0 < fr_amount r) by (apply (Hp a); unfold amts; now rewrite lookup_fmap, Hf).
        destruct (N.eqb_spec (fr_amount r) 0); [lia|]. inv. bool_inv. subst.
        unfold register_account in Hs. rewrite Hf in Hs. inv. subst. rewrite <- Hs. cbn [fs_set_farmers fs_farmers] in *.
        exists (fr_set_amount r (fr_amount r + attached)). cbn [fs_set_farmers fs_farmers]. rewrite lookup_insert. split; [done|].
        unfold fr_storage_usage in *. cbn [fr_set_amount fr_amount fr_rewards fr_seeds fr_count] in *. lia.
      * cbn in Hs. destruct (N.leb_spec min_storage_usage attached); [|discriminate]. cbn [ensure mbind option_bind] in Hs.
        unfold register_account in Hs. rewrite Hf in Hs. inv. rewrite <- Hs. eexists. cbn [fs_set_count fs_set_farmers fs_farmers]. rewrite lookup_insert. split; [done|].
        etransitivity; [apply usage_new|]. cbn [farmer_new fr_amount]. destruct registration_only; lia.
    + destruct (storage_withdraw (w_c w) a attached amount) as [[c1 n]|] eqn:Hs; [|discriminate]. injection H as -> _.
      apply storage_withdraw_book in Hs as (r & Hr' & -> & _ & Hle & _ & Ec). rewrite Ec. exists (fr_set_amount r (fr_amount r - n)).
      cbn [fs_set_farmers fs_farmers]. rewrite lookup_insert. split; [done|]. unfold fr_storage_usage in *. cbn [fr_set_amount fr_amount fr_rewards fr_seeds fr_count] in *. lia.
    + unfold claim_reward_by_farm in H. inv. subst. eapply assert_covered; eauto.
    + unfold claim_reward_by_seed in H. inv. subst. eapply assert_covered; eauto.
  - injection He as ->. cbn [fstep] in Hs. destruct (w_tick w now); [|discriminate]. cbn [mbind option_bind] in Hs.
    destruct (ft_on_transfer _ _ _ _ _ _) as [c1|] eqn:Hc; [|discriminate]. injection Hs as <-. cbn [w_c]. unfold ft_on_transfer in Hc. inv. subst.
    eapply assert_covered; eauto.
Qed.
Print Assumptions C74_covered.

(** Without it, a farmer can neither claim nor stake nor take NEAR back. *)
Theorem C74_uncovered w e a :
  ~ covered (w_c w) a ->
  match e with EvCall _ _ (CStorageDeposit _ _ _) => false | _ => true end = true -> covers e = Some a -> fstep w e = None.
Proof.
  intros Hc Hx He. destruct (fstep w e) as [w'|] eqn:Hs; [exfalso|done]. apply Hc.
  assert (Hback : forall c' r, fs_farmers (w_c w) !! a = Some r ->
    (exists r', fs_farmers c' !! a = Some r' /\ fr_amount r' = fr_amount r /\ fr_storage_usage r <= fr_storage_usage r') ->
    covered c' a -> covered (w_c w) a).
  { intros c' r Hr (r' & Hr' & E & L) (r2 & Hr2 & Hle). exists r. split; [done|]. rewrite Hr' in Hr2. injection Hr2 as <-. lia. }
  destruct e as [now b x|now t b am [fid|]| | |]; try discriminate He.
  - apply fstep_call in Hs as (_ & p & H). destruct x; try discriminate He; try discriminate Hx; injection He as ->; cbn [fcall_exec] in H.
    + destruct (storage_withdraw (w_c w) a attached amount) as [[c1 n]|] eqn:Hs; [|discriminate].
      apply storage_withdraw_book in Hs as (r & Hr' & -> & _ & Hle & _ & Ec). exists r. split; [done|lia].
    + unfold claim_reward_by_farm in H. inv. subst.
      match goal with H : claim_by_farm _ _ _ _ = Some ?c, H' : assert_storage_usage _ _ = Some _ |- _ => apply assert_covered in H'; rename H into Hcl; rename H' into Hco end.
      destruct (fs_farmers (w_c w) !! a) as [r|] eqn:Hr; [|unfold claim_by_farm in Hcl; rewrite Hr in Hcl; discriminate].
      eapply Hback; [reflexivity| |exact Hco]. unfold claim_by_farm in Hcl. rewrite Hr in Hcl. cbn [mbind option_bind] in Hcl.
      destruct (fs_seeds (w_c w) !! fst fid); [|injection Hcl as <-; exists r; split_and!; auto; lia].
      destruct (fs_farms (w_c w) !! fid); [|injection Hcl as <-; exists r; split_and!; auto; lia].
      eapply claim_from_farm_usage; eauto.
    + unfold claim_reward_by_seed in H. inv. subst.
      match goal with H : claim_by_seed _ _ _ _ = Some ?c, H' : assert_storage_usage _ _ = Some _ |- _ => apply assert_covered in H'; rename H into Hcl; rename H' into Hco end.
      destruct (fs_farmers (w_c w) !! a) as [r|] eqn:Hr; [|unfold claim_by_seed in Hcl; rewrite Hr in Hcl; discriminate].
      eapply Hback; [reflexivity| |exact Hco]. unfold claim_by_seed in Hcl. rewrite Hr in Hcl. cbn [mbind option_bind] in Hcl.
      destruct (fs_seeds (w_c w) !! s); [|injection Hcl as <-; exists r; split_and!; auto; lia].
      eapply claim_from_farms_usage; eauto.
  - injection He as ->. cbn [fstep] in Hs. destruct (w_tick w now); [|discriminate]. cbn [mbind option_bind] in Hs.
    destruct (ft_on_transfer _ _ _ _ _ _) as [c1|] eqn:Hf; [|discriminate]. injection Hs as <-. unfold ft_on_transfer in Hf. inv. subst.
    match goal with H : seed_deposit _ _ _ _ _ = Some ?c, H' : assert_storage_usage _ _ = Some _ |- _ => apply assert_covered in H'; rename H into Hcl; rename H' into Hco end.
    destruct (fs_farmers (w_c w) !! a) as [r|] eqn:Hr.
    + eapply Hback; [reflexivity| |exact Hco]. eapply seed_deposit_usage; eauto.
    + exfalso. unfold seed_deposit, claim_by_seed in Hcl. rewrite Hr in Hcl. discriminate.
Qed.
Print Assumptions C74_uncovered.

Definition ex_uncovered : list fevent :=
  ex_prefix ++
  [EvCall (sec 305) "alice" (CStorageWithdraw 1 None);
   EvCall (sec 306) "owner" (CCreateFarm (10 ^ 24) 200 ex_terms None);
   EvCall (sec 310) "alice" (CWithdrawSeed 1 "lp" 100)].
(** Withdrawing a stake claims as well, and no check follows: a farmer can be left with storage that is not paid for. *)
Theorem C74_always_covered_refuted :
  exists w a r, freachable w /\ fs_farmers (w_c w) !! a = Some r /\ ~ covered (w_c w) a.
Proof.
  assert (E : match fs_farmers (w_c (ex_world ex_uncovered)) !! "alice" with Some r => fr_amount r <? fr_storage_usage r | None => false end = true)
    by (vm_compute; reflexivity).
  destruct (fs_farmers (w_c (ex_world ex_uncovered)) !! "alice") as [r|] eqn:Hr; [|discriminate].
  exists (ex_world ex_uncovered), "alice"%string, r. split; [apply ex_reachable, is_Some_bool; vm_compute; reflexivity|]. split; [exact Hr|].
  intros (r' & Hr' & Hle). rewrite Hr in Hr'. injection Hr' as <-. bool_inv. lia.
Qed.
Print Assumptions C74_always_covered_refuted.

(** the hypotheses are met: NEAR is deposited, refunded, withdrawn and paid back *)
Definition ex_near : list fevent :=
  ex_prefix ++
  [EvCall (sec 300) "carol" (CStorageDeposit "dave" (10 ^ 23) true);
   EvCall (sec 301) "dave" (CStorageDeposit "dave" (10 ^ 20) false);
   EvCall (sec 305) "alice" (CStorageWithdraw 1 (Some (10 ^ 23)));
   EvCall (sec 306) "dave" (CStorageUnregister 1)].
Definition f_ledger_exec (w : FWorld) (h : N) (es : list fevent) : option (FWorld * N) :=
  foldl (fun o e => '(w, h) ← o; w' ← fstep w e; Some (w', h + f_near_in e - f_near_out w e)) (Some (w, h)) es.
Example C72_ex :
  match f_ledger_exec (fw_new "owner") 0 ex_near with
  | Some (w, h) => paid_by (w_c w) "alice" = 9 * 10 ^ 23 /\ paid_by (w_c w) "dave" = 0 /\ paid_total (w_c w) = 19 * 10 ^ 23 /\ h = 19 * 10 ^ 23 + 2
  | None => False end /\
  match frun_exec (fw_new "owner") ex_prefix with
  | Some w => f_sent (w_c w) "carol" (CStorageDeposit "dave" (10 ^ 23) true) = 10 ^ 23 - min_storage_usage /\
      f_sent (w_c w) "alice" (CStorageWithdraw 1 None) = 10 ^ 24 - 425 * 10 ^ 19
  | None => False end.
Proof. vm_compute. auto. Qed.
Example C73_ex : let c := w_c (ex_world ex_events) in
  get_metadata c = (2, 1, 1, 1) /\ reward_info c "rew" = 5500 /\ brought "rew" ex_events = 5500 /\ farms_total c "rew" = 5500.
Proof. vm_compute. auto. Qed.
Example C74_ex : storage_balance_of (w_c (ex_world ex_uncovered)) "alice" = Some (425 * 10 ^ 19, 0) /\
  get_user_storage_state (w_c (ex_world ex_uncovered)) "alice" = Some (425 * 10 ^ 19, 590 * 10 ^ 19) /\
  fstep (ex_world ex_uncovered) (EvCall (sec 400) "alice" (CClaimSeed "lp")) = None /\
  match fstep (ex_world ex_uncovered) (EvCall (sec 400) "alice" (CStorageDeposit "alice" (165 * 10 ^ 19) false)) with Some _ => True | None => False end.
Proof. vm_compute. auto. Qed.

(** ** C75: what is displayed about a farm is what the next operation finds *)
Lemma try_distribute_any now f S1 S2 o1 o2 :
  try_distribute now f S1 = Some o1 -> try_distribute now f S2 = Some o2 ->
  match o1, o2 with
  | Some d1, Some d2 => d_undist d1 = d_undist d2 /\ d_unclaimed d1 = d_unclaimed d2 /\ d_rr d1 = d_rr d2
  | None, None => True
  | _, _ => False
  end.
Proof.
  unfold try_distribute. destruct (f_status f); try (intros [= <-] [= <-]; exact I).
  destruct (now <? _); [intros [= <-] [= <-]; exact I|].
  destruct (csub _ _) as [el|]; [|discriminate]. cbn [mbind option_bind].
  destruct (cdiv _ _) as [rr0|]; [|discriminate]. cbn [mbind option_bind].
  destruct (reward_round f rr0) as [[added rr]|]; [|discriminate]. cbn [mbind option_bind].
  destruct (cadd _ _ _) as [u|]; [|discriminate]. cbn [mbind option_bind].
  destruct (csub _ _) as [ud|]; [|discriminate]. cbn [mbind option_bind].
  match goal with |- context [if S1 =? 0 then ?a else ?b] => destruct (if S1 =? 0 then a else b) as [p1|]; [|discriminate] end.
  match goal with |- context [if S2 =? 0 then ?a else ?b] => destruct (if S2 =? 0 then a else b) as [p2|]; [|discriminate] end.
  cbn [mbind option_bind]. intros [= <-] [= <-]. done.
Qed.
Theorem C75_displayed now f S f1 i :
  distribute now f S = Some f1 -> farm_info now f = Some i ->
  fi_status i = f_status f1 /\ fi_total i = f_reward f1 /\ fi_round i = d_rr (f_dist f1) /\ fi_last i = d_rr (f_dist f) /\
  fi_claimed i + fi_unclaimed i = f_claimed f1 + d_unclaimed (f_dist f1) /\
  (0 < S -> fi_claimed i = f_claimed f1 /\ fi_unclaimed i = d_unclaimed (f_dist f1) /\ fi_benef i = f_benef f1).
Proof.
  unfold farm_info. intros Hd Hi. destruct (try_distribute now f DENOM) as [od|] eqn:H2; [|discriminate]. cbn [mbind option_bind] in Hi. injection Hi as <-.
  unfold distribute in Hd. destruct (try_distribute now f S) as [od1|] eqn:H1; [|discriminate]. cbn [mbind option_bind] in Hd.
  pose proof (try_distribute_any _ _ _ _ _ _ H1 H2) as Ha. apply try_distribute_Some in H1.
  destruct od1 as [d1|], od as [d2|]; try done.
  2:{ injection Hd as <-. cbn. split_and!; auto. }
  destruct Ha as (E1 & E2 & E3). destruct H1 as (Hst & _ & added & A1 & A2 & A3 & _ & _ & A6 & _).
  cbn [fi_status fi_total fi_round fi_last fi_claimed fi_unclaimed fi_benef]. rewrite <- E1, <- E2, <- E3, Hst. rewrite (bool_decide_true) by done. cbn [andb].
  destruct (N.eqb_spec (d_rr (f_dist f)) (d_rr d1)) as [Hr|Hr].
  - rewrite A6 in * by done. cbn [mbind option_bind] in Hd. injection Hd as <-.
    assert (Eu : d_undist d1 = d_undist (f_dist f)) by lia. rewrite Eu.
    destruct (d_undist (f_dist f) =? 0); cbn [f_set_status f_status f_reward f_dist f_claimed f_benef]; split_and!; try done; try lia; intros _; split_and!; auto; lia.
  - destruct (N.eqb_spec S 0) as [HS|HS].
    + destruct (cadd W128 (f_claimed f) (d_unclaimed d1)) as [cl|] eqn:Hc1; [|discriminate]. cbn [mbind option_bind] in Hd.
      destruct (cadd W128 (f_benef f) (d_unclaimed d1)) as [be|] eqn:Hc2; [|discriminate]. cbn [mbind option_bind] in Hd.
      apply cadd_Some in Hc1 as [-> _]. injection Hd as <-.
      cbn [f_set_benef f_set_claimed f_set_dist f_dist f_status f_reward f_claimed f_benef d_set_unclaimed d_undist d_unclaimed d_rr].
      destruct (d_undist d1 =? 0);
        cbn [f_set_status f_set_benef f_set_claimed f_set_dist d_set_unclaimed f_status f_reward f_dist f_claimed f_benef d_rr d_unclaimed]; split_and!; try done; try lia.
    + cbn [mbind option_bind] in Hd. injection Hd as <-. cbn [f_set_dist f_dist].
      destruct (d_undist d1 =? 0); cbn [f_set_status f_set_dist f_status f_reward f_dist f_claimed f_benef d_rr d_unclaimed]; split_and!; try done; try lia.
Qed.
Print Assumptions C75_displayed.

(** What is displayed never exceeds what was deposited. *)
Theorem C75_adds_up w now fid f i :
  freachable w -> fs_farms (w_c w) !! fid = Some f -> farm_info now f = Some i -> fi_claimed i + fi_unclaimed i <= fi_total i.
Proof.
  intros Hw Hf Hi. apply winv_reachable in Hw as ((H1 & _) & _). destruct (H1 fid f Hf) as (Hwf & _).
  destruct Hwf as (E & _).
  unfold farm_info in Hi. destruct (try_distribute now f DENOM) as [od|] eqn:H2; [|discriminate]. cbn [mbind option_bind] in Hi. injection Hi as <-.
  apply try_distribute_Some in H2. destruct od as [d|]; cbn [fi_claimed fi_unclaimed fi_total]; [|lia].
  destruct H2 as (_ & _ & added & A1 & A2 & _). lia.
Qed.
Print Assumptions C75_adds_up.

(** With nobody staking, the displayed unclaimed reward is nobody's: the next operation gives it to the beneficiary. *)
Definition ex_empty : list fevent :=
  [EvCall (sec 100) "owner" (CCreateFarm (10 ^ 24) 200 ex_terms (Some 10));
   EvToken (sec 120) "rew" "sponsor" 5500 (Some ex_fid)].
Theorem C75_unclaimed_refuted :
  exists w now fid f f1 i, freachable w /\ w_now w <= now < W64 /\ fs_farms (w_c w) !! fid = Some f /\
    seed_total (w_c w) (fst fid) = 0 /\ distribute now f 0 = Some f1 /\ farm_info now f = Some i /\
    fi_unclaimed i = 3000 /\ d_unclaimed (f_dist f1) = 0 /\ fi_benef i = 0 /\ f_benef f1 = 3000.
Proof.
  pose (f := mkFarm (mkTerms "lp" "rew" 120 1000 60) Running (mkDist 5500 0 0 0) 5500 0 0).
  exists (ex_world ex_empty), (sec 305), ex_fid, f.
  exists (mkFarm (mkTerms "lp" "rew" 120 1000 60) Running (mkDist 2500 0 0 3) 5500 3000 3000), (mkFarmInfo Running 5500 3 0 0 3000 0).
  split; [apply ex_reachable, is_Some_bool; vm_compute; reflexivity|].
  split; [split; vm_compute; congruence|]. repeat (split; [vm_compute; reflexivity|]). vm_compute. reflexivity.
Qed.
Print Assumptions C75_unclaimed_refuted.
Example C75_ex : exists f, known_farm (w_c (ex_world ex_events)) ex_fid = Some f /\
  farm_info (sec 400) f = Some (mkFarmInfo Running 5500 4 3 2999 1001 0) /\
  farm_info (sec 900) f = Some (mkFarmInfo Ended 5500 6 3 2999 2501 0) /\
  match distribute (sec 900) f 900 with Some f1 => f_status f1 = Ended /\ d_rr (f_dist f1) = 6 /\ d_unclaimed (f_dist f1) = 2501 | None => False end.
Proof. eexists. split; [vm_compute; reflexivity|]. vm_compute. auto. Qed.
