(** * The invariant of the boost farming contract *)
From Verif Require Import Base BaseLemmas Boost SpecBoost.

(** ** Maps *)
Lemma msum_rel {K A B} `{Countable K} (h : K -> A -> N) (h' : K -> B -> N) (m : gmap K A) (m' : gmap K B) :
  (forall i, contrib h' i (m' !! i) = contrib h i (m !! i)) -> msum h' m' = msum h m.
Proof.
  revert m'. induction m as [|i x m Hi IH] using map_ind; intros m' E.
  - rewrite msum_empty. apply msum_zero. intros k v Hk. specialize (E k). rewrite Hk, lookup_empty in E. exact E.
  - rewrite msum_insert_None by done. rewrite <- (msum_delete_gen h' m' i).
    rewrite (IH (delete i m')).
    + specialize (E i). rewrite lookup_insert in E. cbn [contrib] in E. rewrite E. lia.
    + intros j. destruct (decide (i = j)) as [<-|Hne].
      * rewrite lookup_delete, Hi. reflexivity.
      * rewrite lookup_delete_ne by done. specialize (E j). now rewrite lookup_insert_ne in E.
Qed.

Lemma map_all_Some {A B} (g : N -> A -> option B) m m' :
  map_all g m = Some m' -> forall i,
  match m !! i with
  | Some x => exists y, g i x = Some y /\ m' !! i = Some y
  | None => m' !! i = None
  end.
Proof.
  unfold map_all. case_decide as D; [|discriminate]. intros [= <-] i.
  rewrite map_lookup_imap. destruct (m !! i) as [x|] eqn:E; [|done].
  destruct (D i x E) as [y Hy]. exists y. cbn. now rewrite Hy.
Qed.

Lemma map_all_inv {A B} (g : N -> A -> option B) m m' i y :
  map_all g m = Some m' -> m' !! i = Some y -> exists x, m !! i = Some x /\ g i x = Some y.
Proof.
  intros H Hy. apply map_all_Some with (i := i) in H. destruct (m !! i) as [x|]; [|congruence].
  destruct H as (y' & Hg & Hy'). rewrite Hy in Hy'. injection Hy' as ->. eauto.
Qed.

Lemma msum_map_all {A B} (g : N -> A -> option B) m m' (h : N -> A -> N) (h' : N -> B -> N) :
  map_all g m = Some m' ->
  (forall i x y, m !! i = Some x -> g i x = Some y -> h' i y = h i x) ->
  msum h' m' = msum h m.
Proof.
  intros H E. apply msum_rel. intros i. pose proof (map_all_Some _ _ _ H i) as Hi.
  destruct (m !! i) as [x|] eqn:Ex.
  - destruct Hi as (y & Hg & ->). cbn [contrib]. eauto.
  - now rewrite Hi.
Qed.

Lemma msum_fmap {K A B} `{Countable K} (h : K -> B -> N) (p : A -> B) (m : gmap K A) :
  msum h (p <$> m) = msum (fun i x => h i (p x)) m.
Proof.
  apply msum_rel. intros i. rewrite lookup_fmap. now destruct (m !! i).
Qed.

(** ** Power *)
Lemma seed_power_Some fl k p : seed_power fl k = Some p -> p = power fl k /\ p < W128 /\ k_free k + k_x k < W128.
Proof.
  unfold seed_power, basic_power. intros; inv; subst. unfold power, msum.
  split; [reflexivity|auto].
Qed.

Lemma power_zero fl r : zero_extra fl -> power fl (empty_stake r) = 0.
Proof.
  intros Z. unfold power, empty_stake; cbn [k_free k_x k_ratios].
  rewrite msum_zero; [reflexivity|]. intros. apply Z.
Qed.

(** ** Sums over the farmers *)
Lemma all_stakes_farmer h s c a F' :
  all_stakes h s (set_farmer c a F') + match b_farmers c !! a with Some F => of_stake h s F | None => 0 end
  = all_stakes h s c + of_stake h s F'.
Proof.
  unfold all_stakes, set_farmer, set_farmers; cbn [b_farmers].
  pose proof (msum_insert (fun _ F => of_stake h s F) (b_farmers c) a F') as E.
  unfold contrib in E. exact E.
Qed.
Lemma all_rewards_farmer t c a F' :
  all_rewards t (set_farmer c a F') + match b_farmers c !! a with Some F => shares_get (b_rewards F) t | None => 0 end
  = all_rewards t c + shares_get (b_rewards F') t.
Proof.
  unfold all_rewards, set_farmer, set_farmers; cbn [b_farmers].
  pose proof (msum_insert (fun _ F => shares_get (b_rewards F) t) (b_farmers c) a F') as E.
  unfold contrib in E. exact E.
Qed.
Lemma all_stakes_ext h h' s c :
  (forall a F k, b_farmers c !! a = Some F -> b_stakes F !! s = Some k -> h k = h' k) ->
  all_stakes h s c = all_stakes h' s c.
Proof.
  intros E. unfold all_stakes. apply msum_ext. intros a F HF. unfold of_stake.
  destruct (b_stakes F !! s) eqn:Ek; eauto.
Qed.
Lemma all_stakes_add h h' s c :
  all_stakes (fun k => h k + h' k) s c = all_stakes h s c + all_stakes h' s c.
Proof.
  unfold all_stakes. rewrite <- msum_add. apply msum_ext. intros a F _. unfold of_stake.
  destruct (b_stakes F !! s); lia.
Qed.
Lemma all_stakes_mul n h s c : all_stakes (fun k => n * h k) s c = n * all_stakes h s c.
Proof.
  unfold all_stakes. rewrite <- msum_mul. apply msum_ext. intros a F _. unfold of_stake.
  destruct (b_stakes F !! s); lia.
Qed.
Lemma all_stakes_zero h s c :
  (forall a F k, b_farmers c !! a = Some F -> b_stakes F !! s = Some k -> h k = 0) -> all_stakes h s c = 0.
Proof.
  intros E. unfold all_stakes. apply msum_zero. intros a F HF. unfold of_stake.
  destruct (b_stakes F !! s) eqn:Ek; eauto.
Qed.

(** ** The invariant *)
(** what the stakes never exceed *)
Definition stake_ok (now : N) (k : BStake) : Prop :=
  k_locked k <= k_x k /\ (k_locked k = 0 -> k_x k = 0) /\ k_unlock k <= now + b_nano (k_dur k) /\
  (k_unlock k < W64).
Definition farm_ok (f : BFarm) : Prop :=
  bf_dist f <= bf_total f /\ (bf_total f = 0 -> bf_rps f = 0).
Definition old_ok (f : BFarm) : Prop :=
  bf_claimed f + bf_benef f = bf_dist f /\ bf_dist f = bf_total f.

Record seed_inv (fl : Floats) (c : BState) (s : SeedId) (sd : BSeed) : Prop := mk_seed_inv {
  si_amount : bs_amount sd = all_stakes staked s c;
  si_power : bs_power sd = all_stakes (power fl) s c;
  si_next : forall i f, bs_farms sd !! i = Some f -> i < bs_next sd;
  si_farm : forall i f, bs_farms sd !! i = Some f -> farm_ok f;
  si_rps : forall i f a F k, bs_farms sd !! i = Some f -> b_farmers c !! a = Some F -> b_stakes F !! s = Some k ->
             default 0 (k_rps k !! i) <= bf_rps f;
  si_due : forall i f, bs_farms sd !! i = Some f ->
             B_DIV * (bf_claimed f + bf_benef f) + all_stakes (due fl i f) s c <= B_DIV * bf_dist f;
}.
Record binv (fl : Floats) (now : N) (c : BState) : Prop := mk_binv {
  bi_seed : forall s sd, b_seeds c !! s = Some sd -> seed_inv fl c s sd;
  bi_stake : forall a F s k, b_farmers c !! a = Some F -> b_stakes F !! s = Some k ->
               stake_ok now k /\ exists sd, b_seeds c !! s = Some sd /\
                 forall i r, k_rps k !! i = Some r -> i < bs_next sd;
  bi_rewards : forall t, all_rewards t c = all_farms (in_token bf_claimed t) c;
  bi_old : forall s i f, b_outdated c !! (s, i) = Some f -> old_ok f /\
             exists sd, b_seeds c !! s = Some sd /\ i < bs_next sd /\ bs_farms sd !! i = None;
  bi_farmers : b_farmer_count c = N.of_nat (size (b_farmers c));
  bi_farms : b_farm_count c = live_farms (fun _ => 1) c;
  bi_self : forall b info, c_boosters (b_cfg c) !! b = Some info -> snd info !! b = None;
  bi_mult : MIN_LOCKING_REWARD_RATIO < c_max_mult (b_cfg c);
}.

(** what a claim does not change *)
Record same_tot (c c' : BState) : Prop := mk_same {
  st_seed : forall s, seed_total c' s = seed_total c s;
  st_live : forall h, (forall f f', bf_token f' = bf_token f -> bf_total f' = bf_total f -> h f' = h f) ->
              live_farms h c' = live_farms h c;
  st_cfg : b_cfg c' = b_cfg c;
  st_owner : b_owner c' = b_owner c /\ b_running c' = b_running c /\ b_ops c' = b_ops c;
  st_old : b_outdated c' = b_outdated c;
  st_slash : b_slashed c' = b_slashed c;
  st_fc : b_farmer_count c' = b_farmer_count c;
  st_mc : b_farm_count c' = b_farm_count c;
}.
Lemma same_refl c : same_tot c c.
Proof. constructor; auto. Qed.
Lemma same_trans a b c : same_tot a b -> same_tot b c -> same_tot a c.
Proof.
  intros [A1 A2 A3 A4 A5 A6 A7 A8] [B1 B2 B3 B4 B5 B6 B7 B8]. constructor.
  - intros s. rewrite B1. apply A1.
  - intros h Hh. rewrite (B2 h Hh). apply (A2 h Hh).
  - congruence.
  - intuition congruence.
  - congruence.
  - congruence.
  - congruence.
  - congruence.
Qed.

Lemma live_set_seed h c s sd sd' :
  b_seeds c !! s = Some sd ->
  msum (fun _ f => h f) (bs_farms sd') = msum (fun _ f => h f) (bs_farms sd) ->
  live_farms h (set_seed c s sd') = live_farms h c.
Proof.
  intros Hs E. unfold live_farms, set_seed, set_seeds; cbn [b_seeds].
  pose proof (msum_insert (fun _ sd => msum (fun _ f => h f) (bs_farms sd)) (b_seeds c) s sd') as I.
  rewrite Hs in I. cbn [contrib] in I. lia.
Qed.

(** ** Updating a seed *)
Lemma farm_update_Some now p f f' :
  farm_update now p f = Some f' ->
  bf_token f' = bf_token f /\ bf_start f' = bf_start f /\ bf_daily f' = bf_daily f /\ bf_total f' = bf_total f /\
  bf_claimed f' = bf_claimed f /\
  exists r inc ben, bf_dist f' = bf_dist f + r /\ bf_rps f' = bf_rps f + inc /\ bf_benef f' = bf_benef f + ben /\
    (r = 0 \/ (bf_dist f + r <= bf_total f /\ 0 < bf_total f)) /\
    inc * p + B_DIV * ben <= B_DIV * r /\ (inc = 0 \/ 0 < bf_total f).
Proof.
  unfold farm_update. destruct (now <=? bf_at f).
  { intros [= ->]. repeat (split; [reflexivity|]). exists 0, 0, 0. repeat split; auto; lia. }
  destruct (farm_status now f) eqn:St; intros H; inv; subst.
  1,2,4: cbn; repeat (split; [reflexivity|]); exists 0, 0, 0; repeat split; auto; lia.
  assert (T : 0 < bf_total f).
  { unfold farm_status in St. destruct (_ || _) eqn:O1; [discriminate|]. bool_inv.
    destruct (_ && (b_nano _ <? now)) eqn:O2; [discriminate|]. apply andb_false_iff in O2.
    unfold b_nano in *. destruct O2 as [O2|O2]; bool_inv; lia. }
  apply u128_ratio_Some in Hx0 as (-> & _ & _).
  set (r := N.min (bf_total f - bf_dist f) (bf_daily f * (now - bf_at f) / NANOS_PER_DAY)) in *.
  assert (R : bf_dist f + r <= bf_total f).
  { subst r. pose proof (N.le_min_l (bf_total f - bf_dist f) (bf_daily f * (now - bf_at f) / NANOS_PER_DAY)). lia. }
  clearbody r.
  destruct (N.ltb_spec 0 p); inv; subst; cbn; repeat (split; [reflexivity|]).
  - exists r, (r * B_DIV / p), 0. repeat split; auto; try lia.
  - exists r, 0, r. repeat split; auto; lia.
Qed.

Lemma due_update fl c s i f f' inc :
  bf_rps f' = bf_rps f + inc ->
  (forall a F k, b_farmers c !! a = Some F -> b_stakes F !! s = Some k -> default 0 (k_rps k !! i) <= bf_rps f) ->
  all_stakes (due fl i f') s c = all_stakes (due fl i f) s c + inc * all_stakes (power fl) s c.
Proof.
  intros E U. rewrite <- all_stakes_mul, <- all_stakes_add. apply all_stakes_ext.
  intros a F k HF Hk. unfold due. rewrite E. pose proof (U a F k HF Hk). nia.
Qed.

Lemma touch_seed fl now' c s sd now sd' :
  binv fl now' c -> b_seeds c !! s = Some sd -> seed_update now sd = Some sd' ->
  binv fl now' (set_seed c s sd') /\ same_tot c (set_seed c s sd').
Proof.
  intros I Hs H. unfold seed_update in H. inv; subst. rename x into m. rename Hx into Hm.
  assert (L : forall h, (forall f f', bf_token f' = bf_token f -> bf_total f' = bf_total f ->
                            bf_claimed f' = bf_claimed f -> h f' = h f) ->
              live_farms h (set_seed c s (with_farms sd m)) = live_farms h c).
  { intros h Eh. apply live_set_seed with (sd := sd); [done|]. cbn [bs_farms with_farms].
    apply (msum_map_all _ _ _ _ _ Hm). intros i x y _ Hy.
    apply farm_update_Some in Hy as (? & _ & _ & ? & ? & _). apply Eh; auto. }
  split.
  - constructor; unfold set_seed, set_seeds; cbn [b_seeds b_farmers b_outdated b_farmer_count b_farm_count b_cfg].
    + intros s' sd1 H1. destruct (decide (s = s')) as [<-|Hne].
      * rewrite lookup_insert in H1. injection H1 as <-. pose proof (bi_seed _ _ _ I s sd Hs) as [? ? A B C D].
        constructor; cbn [bs_amount bs_power bs_farms bs_next with_farms]; auto.
        -- intros i f' Hf'; destruct (map_all_inv _ _ _ _ _ Hm Hf') as (f & Hf & Hu). eauto.
        -- intros i f' Hf'; destruct (map_all_inv _ _ _ _ _ Hm Hf') as (f & Hf & Hu). apply farm_update_Some in Hu as (_ & _ & _ & E4 & _ & r & inc & ben & E1 & E2 & E3 & Hr & Hi & Hz).
           destruct (B i f Hf) as [B1 B2]. split; [lia|]. rewrite E4, E2. intros T0.
           rewrite (B2 T0). destruct Hz; lia.
        -- intros i f' a F k Hf' HF Hk; destruct (map_all_inv _ _ _ _ _ Hm Hf') as (f & Hf & Hu). apply farm_update_Some in Hu as (_ & _ & _ & _ & _ & r & inc & ben & _ & E2 & _).
           pose proof (C i f a F k Hf HF Hk). lia.
        -- intros i f' Hf'; destruct (map_all_inv _ _ _ _ _ Hm Hf') as (f & Hf & Hu).
           apply farm_update_Some in Hu as (_ & _ & _ & _ & E5 & r & inc & ben & E1 & E2 & E3 & Hr & Hi & Hz).
           change (all_stakes (due fl i f') s _) with (all_stakes (due fl i f') s c).
           rewrite (due_update fl c s i f f' inc E2).
           2:{ intros a F k HF Hk. eauto. }
           rewrite <- si_power0. pose proof (D i f Hf). rewrite E1, E3, E5. lia.
      * rewrite lookup_insert_ne in H1 by done. pose proof (bi_seed _ _ _ I s' sd1 H1) as []. constructor; auto.
    + intros a F s' k HF Hk. destruct (bi_stake _ _ _ I a F s' k HF Hk) as (Ok & sd1 & H1 & H2). split; [done|].
      destruct (decide (s = s')) as [<-|Hne].
      * rewrite Hs in H1. injection H1 as <-. exists (with_farms sd m). rewrite lookup_insert. auto.
      * exists sd1. now rewrite lookup_insert_ne.
    + intros t. change (all_rewards t _) with (all_rewards t c). rewrite (bi_rewards _ _ _ I t).
      unfold all_farms. f_equal; symmetry. apply L. intros f f' E1 _ E3. unfold in_token. now rewrite E1, E3.
    + intros s' i f Hf. destruct (bi_old _ _ _ I s' i f Hf) as (Ok & sd1 & H1 & H2 & H3). split; [done|].
      destruct (decide (s = s')) as [<-|Hne].
      * rewrite Hs in H1. injection H1 as <-. exists (with_farms sd m). rewrite lookup_insert.
        cbn [bs_next bs_farms with_farms]. repeat split; auto.
        pose proof (map_all_Some _ _ _ Hm i) as Hi. now rewrite H3 in Hi.
      * exists sd1. now rewrite lookup_insert_ne.
    + apply (bi_farmers _ _ _ I).
    + rewrite (bi_farms _ _ _ I). symmetry. apply L. auto.
    + apply (bi_self _ _ _ I).
    + apply (bi_mult _ _ _ I).
  - constructor; auto.
    intros s'. unfold seed_total, set_seed, set_seeds; cbn [b_seeds].
    destruct (decide (s = s')) as [<-|Hne]; [now rewrite lookup_insert, Hs|now rewrite lookup_insert_ne].
Qed.

(** ** Claiming *)
Definition tok_amount (t : AccountId) (y : BFarm * N) : N := if String.eqb (bf_token (fst y)) t then snd y else 0.

Lemma credit_Some l rw rw' t :
  credit l rw = Some rw' -> shares_get rw' t = shares_get rw t + lsum ((fun e => tok_amount t (snd e)) <$> l).
Proof.
  revert rw. induction l as [|[i [f n]] l IH]; cbn [credit fmap list_fmap lsum]; intros rw H; inv; subst; [lia|].
  apply IH in H. rewrite H. unfold tok_amount at 2; cbn [fst snd].
  destruct (N.ltb_spec 0 n) as [Hn|Hn]; inv; subst.
  - apply add_to_collection_Some in Hx as [-> _].
    destruct (String.eqb_spec (bf_token f) t) as [->|Hne].
    + rewrite shares_get_insert. lia.
    + rewrite shares_get_insert_ne by done. lia.
  - assert (n = 0) as -> by lia. destruct (String.eqb _ _); lia.
Qed.
Lemma credit_map m rw rw' t :
  credit (map_to_list m) rw = Some rw' -> shares_get rw' t = shares_get rw t + msum (fun _ y => tok_amount t y) m.
Proof.
  intros H. rewrite (credit_Some _ _ _ t H). f_equal. clear H. unfold msum, map_fold. cbn.
  induction (map_to_list m) as [|[i y] l IH]; [reflexivity|]. cbn. f_equal. exact IH.
Qed.

Lemma claim_farm_Some p rps i f f' n :
  claim_farm p rps i f = Some (f', n) ->
  f' = mkBFarm (bf_token f) (bf_start f) (bf_daily f) (bf_total f) (bf_at f) (bf_dist f) (bf_claimed f + n) (bf_benef f) (bf_rps f) /\
  default 0 (rps !! i) <= bf_rps f /\ n = (bf_rps f - default 0 (rps !! i)) * p / B_DIV.
Proof. unfold claim_farm. intros; inv; subst. auto. Qed.

Definition stake_of (F : BFarmer) (s : SeedId) (k : BStake) : Prop :=
  b_stakes F !! s = Some k \/ (b_stakes F !! s = None /\ exists r, k = empty_stake r).

Lemma do_claim_Some fl g s F sd F' sd' :
  do_claim fl g s F sd = Some (F', sd') ->
  exists k k' res rw t,
    stake_of F s k /\
    map_all (claim_farm (power fl k) (k_rps k)) (bs_farms sd) = Some res /\
    (forall tk, shares_get rw tk = shares_get (b_rewards F) tk + msum (fun _ y => tok_amount tk y) res) /\
    (exists ratios, gen_ratios fl g s F = Some ratios /\ k' = with_ratios (with_rps k (new_rps (bs_farms sd))) ratios) /\
    t + power fl k = bs_power sd + power fl k' /\
    F' = with_stake (with_rewards F rw) s k' /\
    sd' = with_total (with_farms sd (fst <$> res)) (bs_amount sd) t.
Proof.
  unfold do_claim. intros H; inv; subst.
  exists x, (with_ratios (with_rps x (new_rps (bs_farms sd))) x3), x1, x2, (bs_power sd + x4 - x0).
  apply seed_power_Some in Hx0 as (-> & _). apply seed_power_Some in Hx4 as (-> & _).
  split.
  { unfold stake_of. destruct (b_stakes F !! s); inv; subst; eauto. }
  split; [exact Hx1|]. split; [intros tk; apply credit_map, Hx2|].
  split; [exists x3; split; [exact Hx3|reflexivity]|]. split; [lia|]. split; reflexivity.
Qed.

Lemma of_stake_of s F k h :
  stake_of F s k -> (forall r, h (empty_stake r) = 0) -> of_stake h s F = h k.
Proof.
  intros [E|[E [r ->]]] Z; unfold of_stake; rewrite E; auto.
Qed.

Lemma new_rps_lookup m i : new_rps m !! i = match m !! i with
  | Some f => if 0 <? bf_total f then Some (bf_rps f) else None | None => None end.
Proof. unfold new_rps. rewrite lookup_omap. now destruct (m !! i). Qed.

Lemma with_stake_lookup F rw s k s' :
  b_stakes (with_stake (with_rewards F rw) s k) !! s' = if decide (s = s') then Some k else b_stakes F !! s'.
Proof.
  unfold with_stake, with_rewards; cbn [b_stakes]. destruct (decide (s = s')) as [<-|Hne];
    [apply lookup_insert|now apply lookup_insert_ne].
Qed.

Lemma power_same fl k k' : k_free k' = k_free k -> k_x k' = k_x k -> k_ratios k' = k_ratios k -> power fl k' = power fl k.
Proof. unfold power. now intros -> -> ->. Qed.

(** the state with a farmer and a seed replaced *)
Definition put (c : BState) (a : AccountId) (F : BFarmer) (s : SeedId) (sd : BSeed) : BState :=
  set_seed (set_farmer c a F) s sd.

Lemma all_stakes_seed h s c s' sd : all_stakes h s (set_seed c s' sd) = all_stakes h s c.
Proof. reflexivity. Qed.
Lemma all_stakes_put h s c a F s' sd : all_stakes h s (put c a F s' sd) = all_stakes h s (set_farmer c a F).
Proof. reflexivity. Qed.

Lemma msum_one {K A} `{Countable K} (m : gmap K A) : msum (fun _ _ => 1) m = N.of_nat (size m).
Proof.
  induction m as [|i x m Hi IH] using map_ind; [now rewrite msum_empty, map_size_empty|].
  rewrite msum_insert_None, map_size_insert, Hi, IH by done. lia.
Qed.

Lemma claim_spec fl g now c a F s sd F' sd' :
  zero_extra fl -> binv fl now c -> b_farmers c !! a = Some F -> b_seeds c !! s = Some sd ->
  do_claim fl g s F sd = Some (F', sd') ->
  binv fl now (put c a F' s sd') /\ same_tot c (put c a F' s sd') /\
  exists k', b_stakes F' !! s = Some k' /\
    (forall i f, bs_farms sd' !! i = Some f -> default 0 (k_rps k' !! i) = bf_rps f) /\
    staked k' = of_stake staked s F.
Proof.
  intros Z I HF Hs H.
  apply do_claim_Some in H as (k & k' & res & rw & t & Hk & Hres & Hrw & (ratios & Hrat & Ek') & Hpow & -> & ->).
  set (F' := with_stake (with_rewards F rw) s k'). set (sd' := with_total _ _ _).
  pose proof (bi_seed _ _ _ I s sd Hs) as SI.
  assert (Est : staked k' = staked k) by (subst k'; reflexivity).
  assert (Prps : k_rps k' = new_rps (bs_farms sd)) by (subst k'; reflexivity).
  assert (Pok : stake_ok now k -> stake_ok now k') by (subst k'; intros O; exact O).
  assert (Lk : forall s', b_stakes F' !! s' = if decide (s = s') then Some k' else b_stakes F !! s') by apply with_stake_lookup.
  assert (Settled : forall i f, bs_farms sd !! i = Some f -> default 0 (k_rps k' !! i) = bf_rps f).
  { intros i f Hf. rewrite Prps, new_rps_lookup, Hf. destruct (N.ltb_spec 0 (bf_total f)); [reflexivity|].
    cbn [default]. symmetry. apply (si_farm _ _ _ _ SI i f Hf). lia. }
  assert (Old : forall h, (forall r, h (empty_stake r) = 0) -> of_stake h s F = h k).
  { intros h Hh. apply of_stake_of; auto. }
  assert (Sum : forall h, (forall r, h (empty_stake r) = 0) ->
            all_stakes h s (put c a F' s sd') + h k = all_stakes h s c + h k').
  { intros h Hh. rewrite all_stakes_put. pose proof (all_stakes_farmer h s c a F') as E. rewrite HF, (Old h Hh) in E.
    rewrite E. f_equal. unfold of_stake. rewrite Lk, decide_True; done. }
  assert (Sum' : forall h s', s <> s' -> all_stakes h s' (put c a F' s sd') = all_stakes h s' c).
  { intros h s' Hne. rewrite all_stakes_put. pose proof (all_stakes_farmer h s' c a F') as E. rewrite HF in E.
    assert (of_stake h s' F' = of_stake h s' F) as E'.
    { unfold of_stake. rewrite Lk, decide_False by done. reflexivity. }
    lia. }
  assert (Farm : forall i f', bs_farms sd' !! i = Some f' -> exists f n, bs_farms sd !! i = Some f /\
            claim_farm (power fl k) (k_rps k) i f = Some (f', n)).
  { intros i f' Hf'. subst sd'. cbn [bs_farms with_total with_farms] in Hf'. rewrite lookup_fmap in Hf'.
    destruct (res !! i) as [[f0 n]|] eqn:Ei; [|discriminate]. injection Hf' as <-.
    destruct (map_all_inv _ _ _ _ _ Hres Ei) as (f & Hf & Hc). eauto. }
  assert (Farm' : forall i, bs_farms sd !! i = None -> bs_farms sd' !! i = None).
  { intros i Hi. subst sd'. cbn [bs_farms with_total with_farms]. rewrite lookup_fmap.
    pose proof (map_all_Some _ _ _ Hres i) as E. rewrite Hi in E. now rewrite E. }
  assert (Live : forall h, (forall f f', bf_token f' = bf_token f -> bf_total f' = bf_total f -> h f' = h f) ->
              live_farms h (put c a F' s sd') = live_farms h c).
  { intros h Eh. unfold put. change (live_farms h c) with (live_farms h (set_farmer c a F')).
    apply live_set_seed with (sd := sd); [done|]. subst sd'. cbn [bs_farms with_farms with_total].
    rewrite msum_fmap. apply (msum_map_all _ _ _ _ _ Hres). intros i x [y n] _ Hy.
    apply claim_farm_Some in Hy as (-> & _). apply Eh; reflexivity. }
  split; [|split].
  - constructor.
    + intros s' sd1 H1. unfold put, set_seed, set_seeds in H1; cbn [b_seeds] in H1.
      destruct (decide (s = s')) as [<-|Hne].
      * rewrite lookup_insert in H1. injection H1 as <-. destruct SI as [A1 A2 A3 A4 A5 A6].
        assert (U : forall i f a1 F1 k1, bs_farms sd !! i = Some f ->
                  b_farmers (put c a F' s sd') !! a1 = Some F1 -> b_stakes F1 !! s = Some k1 ->
                  default 0 (k_rps k1 !! i) <= bf_rps f).
        { intros i f a1 F1 k1 Hf HF1 Hk1. unfold put, set_seed, set_seeds, set_farmer, set_farmers in HF1.
          cbn [b_farmers] in HF1. destruct (decide (a = a1)) as [<-|Hna].
          - rewrite lookup_insert in HF1. injection HF1 as <-. rewrite Lk, decide_True in Hk1 by done.
            injection Hk1 as <-. rewrite (Settled i f Hf). lia.
          - rewrite lookup_insert_ne in HF1 by done. eauto. }
        constructor.
        -- subst sd'. cbn [bs_amount with_total]. pose proof (Sum staked ltac:(done)). lia.
        -- subst sd'. cbn [bs_power with_total]. pose proof (Sum (power fl) ltac:(intros; now apply power_zero)). lia.
        -- intros i f' Hf'. destruct (Farm i f' Hf') as (f & n & Hf & _). subst sd'. cbn [bs_next with_total with_farms]. eauto.
        -- intros i f' Hf'. destruct (Farm i f' Hf') as (f & n & Hf & Hc). apply claim_farm_Some in Hc as (-> & _).
           apply (A4 i f Hf).
        -- intros i f' a1 F1 k1 Hf' HF1 Hk1. destruct (Farm i f' Hf') as (f & n & Hf & Hc).
           apply claim_farm_Some in Hc as (-> & _). cbn [bf_rps]. eapply U; eauto.
        -- intros i f' Hf'. destruct (Farm i f' Hf') as (f & n & Hf & Hc).
           apply claim_farm_Some in Hc as (-> & Hle & Hn). cbn [bf_claimed bf_benef bf_dist].
           change (all_stakes (due fl i _) s (put c a F' s sd')) with (all_stakes (due fl i f) s (put c a F' s sd')).
           pose proof (Sum (due fl i f)) as E. specialize (A6 i f Hf).
           assert (due fl i f k' = 0) as E0.
           { unfold due. rewrite (Settled i f Hf), N.sub_diag. lia. }
           assert (n * B_DIV <= due fl i f k) as E1.
           { unfold due. subst n. apply div_mul_le. vm_compute; reflexivity. }
           rewrite E0 in E. lapply E; [|intros; unfold due; rewrite power_zero by done; lia].
           intros E'. lia.
      * rewrite lookup_insert_ne in H1 by done. pose proof (bi_seed _ _ _ I s' sd1 H1) as [A1 A2 A3 A4 A5 A6].
        constructor.
        -- now rewrite Sum'.
        -- now rewrite Sum'.
        -- auto.
        -- auto.
        -- intros i f a1 F1 k1 Hf HF1 Hk1. unfold put, set_seed, set_seeds, set_farmer, set_farmers in HF1.
           cbn [b_farmers] in HF1. destruct (decide (a = a1)) as [<-|Hna].
           ++ rewrite lookup_insert in HF1. injection HF1 as <-. rewrite Lk, decide_False in Hk1 by done. eauto.
           ++ rewrite lookup_insert_ne in HF1 by done. eauto.
        -- intros i f Hf. rewrite Sum' by done. auto.
    + intros a1 F1 s1 k1 HF1 Hk1. unfold put, set_seed, set_seeds, set_farmer, set_farmers in *.
      cbn [b_farmers b_seeds] in *.
      assert (Seeds : forall sd1, b_seeds c !! s1 = Some sd1 -> exists sd2,
                <[s:=sd']> (b_seeds c) !! s1 = Some sd2 /\ bs_next sd2 = bs_next sd1).
      { intros sd1 Hs1. destruct (decide (s = s1)) as [<-|Hne].
        - rewrite lookup_insert. eexists; split; [reflexivity|]. rewrite Hs in Hs1. injection Hs1 as <-. reflexivity.
        - rewrite lookup_insert_ne by done. eauto. }
      destruct (decide (a = a1)) as [<-|Hna].
      * rewrite lookup_insert in HF1. injection HF1 as <-. rewrite Lk in Hk1. destruct (decide (s = s1)) as [<-|Hne].
        -- injection Hk1 as <-. split.
           ++ apply Pok. destruct Hk as [Hk|[_ [r ->]]]; [apply (bi_stake _ _ _ I a F s k HF Hk)|].
              unfold stake_ok, empty_stake; cbn [k_locked k_x k_unlock k_dur]. repeat split; try lia.
           ++ exists sd'. rewrite lookup_insert. split; [reflexivity|]. intros i r Hr.
              rewrite Prps, new_rps_lookup in Hr. destruct (bs_farms sd !! i) as [f|] eqn:Hf; [|discriminate].
              apply (si_next _ _ _ _ SI i f Hf).
        -- destruct (bi_stake _ _ _ I a F s1 k1 HF Hk1) as (Ok & sd1 & Hs1 & Hlt). split; [done|].
           destruct (Seeds sd1 Hs1) as (sd2 & E2 & E3). exists sd2. rewrite E3. auto.
      * rewrite lookup_insert_ne in HF1 by done.
        destruct (bi_stake _ _ _ I a1 F1 s1 k1 HF1 Hk1) as (Ok & sd1 & Hs1 & Hlt). split; [done|].
        destruct (Seeds sd1 Hs1) as (sd2 & E2 & E3). exists sd2. rewrite E3. auto.
    + intros tk. change (all_rewards tk (put c a F' s sd')) with (all_rewards tk (set_farmer c a F')).
      pose proof (all_rewards_farmer tk c a F') as E. rewrite HF in E.
      change (b_rewards F') with rw in E. rewrite Hrw in E.
      pose proof (bi_rewards _ _ _ I tk) as E1.
      assert (live_farms (in_token bf_claimed tk) (put c a F' s sd')
              = live_farms (in_token bf_claimed tk) c + msum (fun _ y => tok_amount tk y) res) as E2.
      { unfold live_farms, put, set_seed, set_seeds, set_farmer, set_farmers; cbn [b_seeds].
        pose proof (msum_insert (fun _ sd => msum (fun _ f => in_token bf_claimed tk f) (bs_farms sd)) (b_seeds c) s sd') as J.
        rewrite Hs in J. cbn [contrib] in J.
        assert (msum (fun _ f => in_token bf_claimed tk f) (bs_farms sd')
                = msum (fun _ f => in_token bf_claimed tk f) (bs_farms sd) + msum (fun _ y => tok_amount tk y) res) as E3.
        { subst sd'. cbn [bs_farms with_total with_farms]. rewrite msum_fmap.
          rewrite <- (msum_map_all _ _ _ (fun _ f => in_token bf_claimed tk f)
                       (fun _ y => if String.eqb (bf_token (fst y)) tk then bf_claimed (fst y) - snd y else 0) Hres).
          - rewrite <- msum_add. apply msum_ext. intros i [f' n] Hi.
            destruct (map_all_inv _ _ _ _ _ Hres Hi) as (f & Hf & Hc). apply claim_farm_Some in Hc as (-> & _).
            unfold in_token, tok_amount; cbn [fst snd bf_token bf_claimed]. destruct (String.eqb _ _); lia.
          - intros i f [f' n] Hf Hc. apply claim_farm_Some in Hc as (-> & _).
            unfold in_token; cbn [fst snd bf_token bf_claimed]. destruct (String.eqb _ _); lia. }
        lia. }
      unfold all_farms in *. change (old_farms (in_token bf_claimed tk) (put c a F' s sd')) with (old_farms (in_token bf_claimed tk) c). lia.
    + intros s1 i f Hf. destruct (bi_old _ _ _ I s1 i f Hf) as (Ok & sd1 & H1 & H2 & H3). split; [done|].
      unfold put, set_seed, set_seeds; cbn [b_seeds set_farmer set_farmers]. destruct (decide (s = s1)) as [<-|Hne].
      * rewrite Hs in H1. injection H1 as <-. exists sd'. rewrite lookup_insert. repeat split; auto.
      * exists sd1. now rewrite lookup_insert_ne.
    + rewrite <- msum_one. change (b_farmer_count (put c a F' s sd')) with (b_farmer_count c).
      rewrite (bi_farmers _ _ _ I), <- msum_one. unfold put, set_seed, set_seeds, set_farmer, set_farmers; cbn [b_farmers].
      pose proof (msum_insert (fun _ _ => 1) (b_farmers c) a F') as E. rewrite HF in E. cbn [contrib] in E. lia.
    + change (b_farm_count (put c a F' s sd')) with (b_farm_count c). rewrite (bi_farms _ _ _ I). symmetry. apply Live. auto.
    + apply (bi_self _ _ _ I).
    + apply (bi_mult _ _ _ I).
  - constructor; auto.
    intros s1. unfold seed_total, put, set_seed, set_seeds; cbn [b_seeds set_farmer set_farmers].
    destruct (decide (s = s1)) as [<-|Hne]; [now rewrite lookup_insert, Hs|now rewrite lookup_insert_ne].
  - exists k'. split; [rewrite Lk, decide_True; done|]. split.
    + intros i f' Hf'. destruct (Farm i f' Hf') as (f & n & Hf & Hc). apply claim_farm_Some in Hc as (-> & _).
      cbn [bf_rps]. apply (Settled i f Hf).
    + rewrite Est. symmetry. apply Old. done.
Qed.

Lemma claim_farmer fl g s F sd F' sd' :
  do_claim fl g s F sd = Some (F', sd') ->
  b_sponsor F' = b_sponsor F /\ (forall t, shares_get (b_rewards F) t <= shares_get (b_rewards F') t) /\
  (forall s', holding s' F' = holding s' F) /\ (forall s', s' <> s -> b_stakes F' !! s' = b_stakes F !! s') /\
  (forall s', is_Some (b_stakes F !! s') -> is_Some (b_stakes F' !! s')).
Proof.
  intros H. apply do_claim_Some in H as (k & k' & res & rw & t & Hk & _ & Hrw & (r & _ & Ek') & _ & -> & _).
  split; [reflexivity|]. split.
  { intros tk. cbn [b_rewards with_stake with_rewards]. rewrite Hrw. lia. }
  split; [|split].
  - intros s'. unfold holding. rewrite with_stake_lookup. destruct (decide (s = s')) as [<-|]; [|reflexivity].
    subst k'. destruct Hk as [->|[-> [r' ->]]]; reflexivity.
  - intros s' Hne. rewrite with_stake_lookup, decide_False by congruence. reflexivity.
  - intros s' Hs'. rewrite with_stake_lookup. destruct (decide (s = s')); eauto.
Qed.

Lemma stake_ok_mono now now' k : now <= now' -> stake_ok now k -> stake_ok now' k.
Proof. unfold stake_ok. intros ? (?&?&?&?). repeat split; auto; lia. Qed.
Lemma binv_mono fl now now' c : now <= now' -> binv fl now c -> binv fl now' c.
Proof.
  intros Hn []. constructor; auto. intros a F s k HF Hk.
  destruct (bi_stake0 a F s k HF Hk) as [? ?]. split; auto. eapply stake_ok_mono; eauto.
Qed.

(** ** Changing a stake right after its claim *)
Lemma stake_change fl now c a F s sd k k' am pw :
  binv fl now c -> b_farmers c !! a = Some F -> b_seeds c !! s = Some sd -> b_stakes F !! s = Some k ->
  (forall i f, bs_farms sd !! i = Some f -> default 0 (k_rps k !! i) = bf_rps f) ->
  k_rps k' = k_rps k -> stake_ok now k' ->
  am + staked k = bs_amount sd + staked k' -> pw + power fl k = bs_power sd + power fl k' ->
  let c' := put c a (with_stake F s k') s (with_total sd am pw) in
  binv fl now c' /\
  (forall s', seed_total c' s' = if decide (s = s') then am else seed_total c s') /\
  (forall h, live_farms h c' = live_farms h c).
Proof.
  intros I HF Hs Hk Settled Erps Ok Eam Epw c'.
  set (F' := with_stake F s k') in *. set (sd' := with_total sd am pw) in *.
  pose proof (bi_seed _ _ _ I s sd Hs) as SI.
  assert (Lk : forall s', b_stakes F' !! s' = if decide (s = s') then Some k' else b_stakes F !! s').
  { intros s'. subst F'. unfold with_stake; cbn [b_stakes]. destruct (decide (s = s')) as [<-|Hne];
      [apply lookup_insert|now apply lookup_insert_ne]. }
  assert (Sum : forall h, all_stakes h s c' + h k = all_stakes h s c + h k').
  { intros h. subst c'. rewrite all_stakes_put. pose proof (all_stakes_farmer h s c a F') as E. rewrite HF in E.
    unfold of_stake in E at 1 2. rewrite Hk, Lk, decide_True in E by done. exact E. }
  assert (Sum' : forall h s', s <> s' -> all_stakes h s' c' = all_stakes h s' c).
  { intros h s' Hne. subst c'. rewrite all_stakes_put. pose proof (all_stakes_farmer h s' c a F') as E. rewrite HF in E.
    assert (of_stake h s' F' = of_stake h s' F) as E'.
    { unfold of_stake. rewrite Lk, decide_False by done. reflexivity. }
    lia. }
  assert (Live : forall h, live_farms h c' = live_farms h c).
  { intros h. subst c'. unfold put. change (live_farms h c) with (live_farms h (set_farmer c a F')).
    apply live_set_seed with (sd := sd); done. }
  split; [|split; [|exact Live]].
  - constructor.
    + intros s' sd1 H1. unfold c', put, set_seed, set_seeds in H1; cbn [b_seeds] in H1.
      destruct (decide (s = s')) as [<-|Hne].
      * rewrite lookup_insert in H1. injection H1 as <-. destruct SI as [A1 A2 A3 A4 A5 A6].
        constructor.
        -- subst sd'. cbn [bs_amount with_total]. pose proof (Sum staked). lia.
        -- subst sd'. cbn [bs_power with_total]. pose proof (Sum (power fl)). lia.
        -- exact A3.
        -- exact A4.
        -- intros i f a1 F1 k1 Hf HF1 Hk1. unfold c', put, set_seed, set_seeds, set_farmer, set_farmers in HF1.
           cbn [b_farmers] in HF1. destruct (decide (a = a1)) as [<-|Hna].
           ++ rewrite lookup_insert in HF1. injection HF1 as <-. rewrite Lk, decide_True in Hk1 by done.
              injection Hk1 as <-. rewrite Erps, (Settled i f Hf). lia.
           ++ rewrite lookup_insert_ne in HF1 by done. eauto.
        -- intros i f Hf. pose proof (Sum (due fl i f)) as E. specialize (A6 i f Hf).
           unfold due in E at 2 4. rewrite Erps, (Settled i f Hf), N.sub_diag in E. lia.
      * rewrite lookup_insert_ne in H1 by done. pose proof (bi_seed _ _ _ I s' sd1 H1) as [A1 A2 A3 A4 A5 A6].
        constructor.
        -- now rewrite Sum'.
        -- now rewrite Sum'.
        -- auto.
        -- auto.
        -- intros i f a1 F1 k1 Hf HF1 Hk1. unfold c', put, set_seed, set_seeds, set_farmer, set_farmers in HF1.
           cbn [b_farmers] in HF1. destruct (decide (a = a1)) as [<-|Hna].
           ++ rewrite lookup_insert in HF1. injection HF1 as <-. rewrite Lk, decide_False in Hk1 by done. eauto.
           ++ rewrite lookup_insert_ne in HF1 by done. eauto.
        -- intros i f Hf. rewrite Sum' by done. auto.
    + intros a1 F1 s1 k1 HF1 Hk1. unfold c', put, set_seed, set_seeds, set_farmer, set_farmers in *.
      cbn [b_farmers b_seeds] in *.
      assert (Seeds : forall sd1, b_seeds c !! s1 = Some sd1 -> exists sd2,
                <[s:=sd']> (b_seeds c) !! s1 = Some sd2 /\ bs_next sd2 = bs_next sd1).
      { intros sd1 Hs1. destruct (decide (s = s1)) as [<-|Hne].
        - rewrite lookup_insert. eexists; split; [reflexivity|]. rewrite Hs in Hs1. injection Hs1 as <-. reflexivity.
        - rewrite lookup_insert_ne by done. eauto. }
      destruct (decide (a = a1)) as [<-|Hna].
      * rewrite lookup_insert in HF1. injection HF1 as <-. rewrite Lk in Hk1. destruct (decide (s = s1)) as [<-|Hne].
        -- injection Hk1 as <-. split; [done|]. destruct (bi_stake _ _ _ I a F s k HF Hk) as (_ & sd1 & Hs1 & Hlt).
           destruct (Seeds sd1 Hs1) as (sd2 & E2 & E3). exists sd2. rewrite E3, Erps. auto.
        -- destruct (bi_stake _ _ _ I a F s1 k1 HF Hk1) as (Ok1 & sd1 & Hs1 & Hlt). split; [done|].
           destruct (Seeds sd1 Hs1) as (sd2 & E2 & E3). exists sd2. rewrite E3. auto.
      * rewrite lookup_insert_ne in HF1 by done.
        destruct (bi_stake _ _ _ I a1 F1 s1 k1 HF1 Hk1) as (Ok1 & sd1 & Hs1 & Hlt). split; [done|].
        destruct (Seeds sd1 Hs1) as (sd2 & E2 & E3). exists sd2. rewrite E3. auto.
    + intros tk. change (all_rewards tk c') with (all_rewards tk (set_farmer c a F')).
      pose proof (all_rewards_farmer tk c a F') as E. rewrite HF in E. change (b_rewards F') with (b_rewards F) in E.
      pose proof (bi_rewards _ _ _ I tk) as E1. unfold all_farms in *. rewrite Live.
      change (old_farms (in_token bf_claimed tk) c') with (old_farms (in_token bf_claimed tk) c). lia.
    + intros s1 i f Hf. destruct (bi_old _ _ _ I s1 i f Hf) as (Ok1 & sd1 & H1 & H2 & H3). split; [done|].
      unfold c', put, set_seed, set_seeds; cbn [b_seeds set_farmer set_farmers]. destruct (decide (s = s1)) as [<-|Hne].
      * rewrite Hs in H1. injection H1 as <-. exists sd'. rewrite lookup_insert. repeat split; auto.
      * exists sd1. now rewrite lookup_insert_ne.
    + rewrite <- msum_one. change (b_farmer_count c') with (b_farmer_count c).
      rewrite (bi_farmers _ _ _ I), <- msum_one. unfold c', put, set_seed, set_seeds, set_farmer, set_farmers; cbn [b_farmers].
      pose proof (msum_insert (fun _ _ => 1) (b_farmers c) a F') as E. rewrite HF in E. cbn [contrib] in E. lia.
    + change (b_farm_count c') with (b_farm_count c). rewrite (bi_farms _ _ _ I). symmetry. apply Live.
    + apply (bi_self _ _ _ I).
    + apply (bi_mult _ _ _ I).
  - intros s1. unfold seed_total, c', put, set_seed, set_seeds; cbn [b_seeds set_farmer set_farmers].
    destruct (decide (s = s1)) as [<-|Hne]; [now rewrite lookup_insert|now rewrite lookup_insert_ne].
Qed.

(** ** Updating the boosted seeds *)
Lemma put_put c a F s sd s1 sd1 F1 sd2 :
  s <> s1 ->
  put (set_seed (put c a F s sd) s1 sd1) a F1 s1 sd2 = put (set_seed c s1 sd2) a F1 s sd.
Proof.
  intros Hne. unfold put, set_seed, set_seeds, set_farmer, set_farmers;
  cbn [b_owner b_running b_ops b_cfg b_seeds b_farmers b_outdated b_slashed b_farmer_count b_farm_count].
  f_equal.
  - rewrite insert_insert. apply insert_commute. done.
  - now rewrite insert_insert.
Qed.

Definition same_farmer (F F' : BFarmer) : Prop :=
  b_sponsor F' = b_sponsor F /\ (forall t, shares_get (b_rewards F) t <= shares_get (b_rewards F') t) /\
  (forall s', holding s' F' = holding s' F) /\
  (forall s', is_Some (b_stakes F !! s') -> is_Some (b_stakes F' !! s')).
Lemma same_farmer_refl F : same_farmer F F.
Proof. split; [done|]. split; [intros; lia|]. auto. Qed.
Lemma same_farmer_trans F1 F2 F3 : same_farmer F1 F2 -> same_farmer F2 F3 -> same_farmer F1 F3.
Proof.
  intros (A1&A2&A3&A4) (B1&B2&B3&B4). split; [congruence|]. split; [intros t; specialize (A2 t); specialize (B2 t); lia|].
  split; [intros s; now rewrite B3, A3|auto].
Qed.

Lemma update_seeds_spec fl now a s sd l c F c' F' :
  zero_extra fl -> s ∉ l -> binv fl now (put c a F s sd) ->
  update_seeds fl now l c F = Some (c', F') ->
  binv fl now (put c' a F' s sd) /\ same_tot (put c a F s sd) (put c' a F' s sd) /\
  b_farmers c' = b_farmers c /\ same_farmer F F' /\ b_stakes F' !! s = b_stakes F !! s.
Proof.
  intros Z. revert c F. induction l as [|s1 l IH]; intros c F Hni I H; cbn [update_seeds] in H.
  { injection H as <- <-. split; [done|]. split; [apply same_refl|]. split; [done|]. split; [apply same_farmer_refl|done]. }
  apply not_elem_of_cons in Hni as [Hne Hni].
  destruct (b_stakes F !! s1) as [k1|] eqn:Ek1; [|eauto].
  apply bind_Some in H as (sd1 & Hx & H). apply bind_Some in H as ([F1 sd2] & Hcl & H).
  unfold get_seed in Hx. apply bind_Some in Hx as (sd0 & Hsd0 & Hup).
  assert (L0 : b_seeds (put c a F s sd) !! s1 = Some sd0).
  { unfold put, set_seed, set_seeds, set_farmer, set_farmers; cbn [b_seeds]. now rewrite lookup_insert_ne. }
  destruct (touch_seed _ _ _ _ _ _ _ I L0 Hup) as [I1 T1].
  assert (LF : b_farmers (set_seed (put c a F s sd) s1 sd1) !! a = Some F) by apply lookup_insert.
  assert (LS : b_seeds (set_seed (put c a F s sd) s1 sd1) !! s1 = Some sd1) by apply lookup_insert.
  destruct (claim_spec fl (b_cfg c) now _ a F s1 sd1 F1 sd2 Z I1 LF LS Hcl) as (I2 & T2 & _).
  pose proof (claim_farmer _ _ _ _ _ _ _ Hcl) as (C1 & C2 & C3 & C4 & C5).
  rewrite put_put in I2, T2 by done.
  destruct (IH _ _ Hni I2 H) as (I3 & T3 & E3 & S3 & K3). split; [done|]. split.
  { eapply same_trans; [eapply same_trans; [exact T1|exact T2]|exact T3]. }
  split; [done|]. split.
  - eapply same_farmer_trans; [|exact S3]. split; [done|]. split; [done|]. split; done.
  - rewrite K3. apply C4. done.
Qed.

Lemma put_farmer c a F s sd : b_farmers c !! a = Some F -> b_seeds c !! s = Some sd -> put c a F s sd = c.
Proof.
  intros HF Hs. destruct c; unfold put, set_seed, set_seeds, set_farmer, set_farmers; cbn in *.
  f_equal; apply insert_id; done.
Qed.

(** ** A farmer's operation *)
Definition good_op (fl : Floats) (now : N) (op : BSeed -> BStake -> option (BStake * N * N * N)) : Prop :=
  forall sd k k' am pw sl, op sd k = Some (k', am, pw, sl) -> stake_ok now k ->
    k_rps k' = k_rps k /\ stake_ok now k' /\
    am + staked k = bs_amount sd + staked k' /\ pw + power fl k = bs_power sd + power fl k'.

Lemma stake_op_spec fl now c a s F sd op c' slash :
  zero_extra fl -> binv fl now c -> b_farmers c !! a = Some F -> get_seed now c s = Some sd ->
  good_op fl now op -> stake_op fl now c a s F sd op = Some (c', slash) ->
  binv fl now c' /\
  exists F1 sd1 k k' am pw F',
    do_claim fl (b_cfg c) s F sd = Some (F1, sd1) /\ b_stakes F1 !! s = Some k /\ op sd1 k = Some (k', am, pw, slash) /\
    bs_amount sd1 = seed_total c s /\ bs_slash sd1 = bs_slash sd /\ staked k = of_stake staked s F /\
    (forall s', seed_total c' s' = if decide (s = s') then am else seed_total c s') /\
    (forall h, (forall f f', bf_token f' = bf_token f -> bf_total f' = bf_total f -> h f' = h f) ->
       live_farms h c' = live_farms h c) /\
    b_cfg c' = b_cfg c /\ (b_owner c' = b_owner c /\ b_running c' = b_running c /\ b_ops c' = b_ops c) /\
    b_outdated c' = b_outdated c /\ b_slashed c' = b_slashed c /\
    b_farmers c' = <[a := F']> (b_farmers c) /\ same_farmer (with_stake F1 s k') F' /\ b_stakes F' !! s = Some k'.
Proof.
  intros Z I HF Hg G H. unfold get_seed in Hg. apply bind_Some in Hg as (sd0 & Hs0 & Hup).
  unfold stake_op in H.
  apply bind_Some in H as ([F1 sd1] & Hcl & H). apply bind_Some in H as (k & Hk & H).
  apply bind_Some in H as ([[[k' am] pw] sl] & Hop & H). apply bind_Some in H as ([c2 F2] & Him & H).
  injection H as <- <-.
  destruct (touch_seed _ _ _ _ _ _ _ I Hs0 Hup) as [I1 T1].
  assert (LF : b_farmers (set_seed c s sd) !! a = Some F) by exact HF.
  assert (LS : b_seeds (set_seed c s sd) !! s = Some sd) by apply lookup_insert.
  destruct (claim_spec fl (b_cfg c) now _ a F s sd F1 sd1 Z I1 LF LS Hcl) as (I2 & T2 & k0 & Hk0 & Set0 & St0).
  rewrite Hk in Hk0. injection Hk0 as <-.
  set (c1 := put (set_seed c s sd) a F1 s sd1) in *.
  assert (LF1 : b_farmers c1 !! a = Some F1) by apply lookup_insert.
  assert (LS1 : b_seeds c1 !! s = Some sd1) by apply lookup_insert.
  destruct (bi_stake _ _ _ I2 a F1 s k LF1 Hk) as (Ok & _).
  destruct (G sd1 k k' am pw sl Hop Ok) as (Er & Ok' & Eam & Epw).
  destruct (stake_change fl now c1 a F1 s sd1 k k' am pw I2 LF1 LS1 Hk Set0 Er Ok' Eam Epw) as (I3 & Tot3 & Live3).
  assert (E3 : put c1 a (with_stake F1 s k') s (with_total sd1 am pw)
               = put c a (with_stake F1 s k') s (with_total sd1 am pw)).
  { subst c1. unfold put, set_seed, set_seeds, set_farmer, set_farmers;
    cbn [b_owner b_running b_ops b_cfg b_seeds b_farmers b_outdated b_slashed b_farmer_count b_farm_count].
    rewrite !insert_insert. reflexivity. }
  rewrite E3 in I3, Tot3, Live3.
  assert (U : binv fl now (put c2 a F2 s (with_total sd1 am pw)) /\
              same_tot (put c a (with_stake F1 s k') s (with_total sd1 am pw)) (put c2 a F2 s (with_total sd1 am pw)) /\
              b_farmers c2 = b_farmers c /\ same_farmer (with_stake F1 s k') F2 /\ b_stakes F2 !! s = Some k').
  { assert (Ks : b_stakes (with_stake F1 s k') !! s = Some k') by apply lookup_insert.
    unfold update_impacted in Him. destruct (c_boosters (b_cfg c) !! s) as [info|] eqn:Ei.
    - rewrite <- Ks. eapply update_seeds_spec; eauto.
      intros Hin. apply elem_of_list_fmap in Hin as ([s1 lb] & E & Hin). cbn in E. subst s1.
      apply elem_of_map_to_list in Hin. rewrite (bi_self _ _ _ I s info Ei) in Hin. discriminate.
    - injection Him as <- <-. split; [done|]. split; [apply same_refl|]. split; [done|]. split; [apply same_farmer_refl|done]. }
  destruct U as (I4 & T4 & E4 & S4 & K4). split; [exact I4|].
  exists F1, sd1, k, k', am, pw, F2.
  destruct T1 as [A1 A2 A3 A4 A5 A6 A7 A8]. destruct T2 as [B1 B2 B3 B4 B5 B6 B7 B8]. destruct T4 as [C1 C2 C3 C4 C5 C6 C7 C8].
  assert (Tc1 : forall s', seed_total c1 s' = seed_total c s') by (intros s'; rewrite B1; apply A1).
  split; [done|]. split; [done|]. split; [done|]. split.
  { specialize (Tc1 s). unfold seed_total in Tc1 at 1. now rewrite LS1 in Tc1. }
  split.
  { apply do_claim_Some in Hcl as (? & ? & ? & ? & ? & _ & _ & _ & _ & _ & _ & ->). reflexivity. }
  split; [done|].
  split. { intros s'. rewrite <- Tc1. change (seed_total (put c2 a F2 s (with_total sd1 am pw)) s' =
             if decide (s = s') then am else seed_total c1 s'). rewrite C1. apply Tot3. }
  split. { intros h Hh. rewrite <- (A2 h Hh), <- (B2 h Hh), <- Live3. apply (C2 h Hh). }
  split; [exact C3|]. split; [exact C4|]. split; [exact C5|]. split; [exact C6|].
  split. { unfold put, set_seed, set_seeds, set_farmer, set_farmers; cbn [b_farmers]. now rewrite E4. }
  split; [done|done].
Qed.
