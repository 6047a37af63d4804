(** * Quoted trades execute: the volume counters and the steps of a swap *)
From Verif Require Import Base BaseLemmas SimplePool SimplePoolProofs SpecSimple SimplePoolInv SimpleFacts StableMath StablePool
  SpecStable StablePoolProofs StablePoolInv StableFacts Rates Echo Twap SpecTwap PropTwap.
From Verif Require Import PropSimple PropStable.
From Verif Require Import Account Pool Exchange SpecExchange AccountProofs PoolFacts
  ExchangeProofs ExchangeInv ExchangeEffect ExchangeFrames SpecWorld WorldProofs ExExample PropWorld SpecSwap SwapProofs SpecHistory HistoryProofs
  PropHistory TwapInv SpecRecords PropRecords SpecExit ExitProofs Views SpecSettings PropSettings SpecTradeLive.

(** ** Every pool has a counter for each of its tokens *)
Definition tokens_at (c : Exchange) (pid : N) : option (list AccountId) := pl_tokens <$> ex_pool c pid.
Lemma sized_alike c c' : counters_sized c -> ex_volumes c' = ex_volumes c -> (forall pid, tokens_at c' pid = tokens_at c pid) -> counters_sized c'.
Proof.
  intros H Hv Ht pid v p Hl Hp. rewrite Hv in Hl. specialize (Ht pid). unfold tokens_at in Ht. rewrite Hp in Ht. cbn [fmap option_fmap option_map] in Ht.
  destruct (ex_pool c pid) as [q|] eqn:Eq; [|discriminate]. injection Ht as ->. eapply H; eauto.
Qed.
Lemma swap_frame_tokens c c' : swap_frame c c' -> forall pid, tokens_at c' pid = tokens_at c pid.
Proof.
  intros (_ & _ & _ & _ & _ & H) pid. unfold tokens_at, ex_pool. destruct (ex_pools c !! N.to_nat pid) as [p|] eqn:E.
  - eapply Forall2_lookup_l in H as (p' & -> & (_ & Ht & _) & _); eauto. cbn. now rewrite Ht.
  - replace (ex_pools c' !! N.to_nat pid) with (@None Pool); [done|]. symmetry. apply lookup_ge_None. apply lookup_ge_None in E.
    now rewrite <- (Forall2_length _ _ _ H).
Qed.
Lemma vol_update_length v ii io a b v' : vol_update v ii io a b = Some v' -> length v' = length v.
Proof.
  unfold vol_update. intros H. bnd H q Hq. destruct q as [x y]. bnd H x' Hx'. bnd H q2 Hq2. destruct q2 as [x2 y2]. bnd H y' Hy'. injection H as <-.
  now rewrite !insert_length.
Qed.
Definition few_pools (c : Exchange) : Prop := N.of_nat (length (ex_pools c)) <= W32.
Lemma few_pools_id c pid p : few_pools c -> ex_pool c pid = Some p -> pid mod W32 = pid.
Proof. intros H Hp. apply lookup_lt_Some in Hp. apply N.mod_small. unfold few_pools in H. lia. Qed.
Lemma volumes_of_sized c pid p : counters_sized c -> few_pools c -> ex_pool c pid = Some p -> length (ex_volumes_of c pid p) = length (pl_tokens p).
Proof.
  intros H Hf Hp. unfold ex_volumes_of. rewrite (few_pools_id _ _ _ Hf Hp). destruct (ex_volumes c !! pid) as [v|] eqn:E; [eauto|apply repeat_length].
Qed.
Lemma sized_swap c tw pid p p' ii io a b v :
  counters_sized c -> few_pools c -> ex_pool c pid = Some p -> pl_tokens p' = pl_tokens p ->
  vol_update (ex_volumes_of c pid p) ii io a b = Some v ->
  counters_sized (ex_put_pool (ex_put_volumes (ex_set_twap c tw) pid v) pid p').
Proof.
  intros H Hf Hp Ht Hv key v' q Hl Hq. pose proof (few_pools_id _ _ _ Hf Hp) as Hid.
  apply vol_update_length in Hv. rewrite (volumes_of_sized _ _ _ H Hf Hp) in Hv.
  rewrite ex_pool_put in Hq by (eexists; exact Hp). revert Hl. ex_cbn. rewrite Hid.
  destruct (N.eqb_spec pid key) as [->|Hne].
  - injection Hq as <-. rewrite lookup_insert. intros [= <-]. congruence.
  - rewrite lookup_insert_ne by done. intros Hl. eapply H; eauto.
Qed.
Lemma few_alike c c' : swap_frame c c' -> few_pools c -> few_pools c'.
Proof. intros H. unfold few_pools. now rewrite (swap_length _ _ H). Qed.
Lemma sized_pool_swap c e pid ti x to mn r c' out :
  ex_wf (e_now e) c -> e_now e < 2 ^ 64 -> ex_pool_swap c e pid ti x to mn r = Some (c', out) ->
  counters_sized c -> few_pools c -> counters_sized c'.
Proof.
  intros Hwf HW H Hs Hf. apply (ex_pool_swap_inv (e_now e)) in H as (p & p' & tw & ii & io & v & Hp & Hsw & Hii & Hio & Hv & ->); auto.
  pose proof (pl_reachable_wf _ _ (ex_wf_pool _ _ _ _ Hwf Hp)) as Hpw.
  apply pl_swap_spec in Hsw as (Hst & _); [|done]. apply pl_step_same in Hst as (_ & Ht & _); [|done]. eapply sized_swap; eauto.
Qed.
Lemma sized_pool_swap_by_output c e pid ti x to mx r c' inp :
  ex_wf (e_now e) c -> e_now e < 2 ^ 64 -> ex_pool_swap_by_output c e pid ti x to mx r = Some (c', inp) ->
  counters_sized c -> few_pools c -> counters_sized c'.
Proof.
  intros Hwf HW H Hs Hf. apply (ex_pool_swap_by_output_inv (e_now e)) in H as (p & p' & tw & ii & v & Hp & Hsw & Hii & Hv & ->); auto.
  pose proof (pl_reachable_wf _ _ (ex_wf_pool _ _ _ _ Hwf Hp)) as Hpw.
  apply (pl_swap_by_output_spec _ (ex_rates c) (e_now e)) in Hsw as (Hst & _); [|done]. apply pl_step_same in Hst as (_ & Ht & _); [|done]. eapply sized_swap; eauto.
Qed.
Lemma sized_action c e acc r a prev c' acc' x :
  ex_wf (e_now e) c -> e_now e < 2 ^ 64 -> ex_exec_action c e acc r a prev = Some (c', acc', x) ->
  ex_wf (e_now e) c' /\ (counters_sized c -> few_pools c -> counters_sized c' /\ few_pools c').
Proof.
  intros Hwf HW H. destruct a as [pid ti am to mn|pid ti am to mx]; cbn [ex_exec_action] in H.
  - bnd H y Hy. bnd H a1 Ha1. bnd H q Hq. destruct q as [c1 o]. bnd H a2 Ha2. injection H as <- <- <-.
    pose proof Hq as Hq'. apply (ex_pool_swap_spec (e_now e)) in Hq' as (Hw & Hfr & _); [|done|lia|done]. split; [done|].
    intros Hs Hf. split; [|eapply few_alike; eauto]. eapply sized_pool_swap; [exact Hwf|exact HW|exact Hq|done|done].
  - bnd H y Hy. bnd H q Hq. destruct q as [c1 o]. injection H as <- <- <-.
    pose proof Hq as Hq'. apply (ex_pool_swap_by_output_spec (e_now e)) in Hq' as (Hw & Hfr & _); [|done|lia|done]. split; [done|].
    intros Hs Hf. split; [|eapply few_alike; eauto]. eapply sized_pool_swap_by_output; [exact Hwf|exact HW|exact Hq|done|done].
Qed.
Lemma sized_swap_loop e r l : e_now e < 2 ^ 64 -> forall c acc prev c' acc' res, ex_wf (e_now e) c ->
  ex_swap_loop c e acc r l prev = Some (c', acc', res) -> counters_sized c -> few_pools c -> counters_sized c'.
Proof.
  intros HW. induction l as [|a l IH]; intros c acc prev c' acc' res Hwf H Hs Hf; cbn [ex_swap_loop] in H; [now injection H as <- <- <-|].
  bnd H q Hq. destruct q as [[c1 a1] x]. apply sized_action in Hq as [Hw Hq]; [|done|done]. destruct (Hq Hs Hf). eapply IH; eauto.
Qed.
Lemma sized_output_loop e r l : e_now e < 2 ^ 64 -> forall c acc pi prev c' acc' res, ex_wf (e_now e) c ->
  ex_output_loop c e acc r l pi prev = Some (c', acc', res) -> counters_sized c -> few_pools c -> counters_sized c'.
Proof.
  intros HW. induction l as [|a l IH]; intros c acc pi prev c' acc' res Hwf H Hs Hf; cbn [ex_output_loop] in H.
  - bnd H a1 Ha1. now injection H as <- <- <-.
  - bnd H a1 Ha1. bnd H q Hq. destruct q as [[c1 a2] x]. apply sized_action in Hq as [Hw Hq]; [|done|done]. destruct (Hq Hs Hf). eapply IH; eauto.
Qed.
Lemma sized_execute c e acc r l prev skip c' acc' res :
  ex_wf (e_now e) c -> e_now e < 2 ^ 64 -> ex_execute c e acc r l prev skip = Some (c', acc', res) -> counters_sized c -> few_pools c -> counters_sized c'.
Proof.
  intros Hwf HW H Hs Hf. unfold ex_execute in H. grd H. grd H. bnd H a0 Ha0. bnd H q Hq. destruct q as [[c1 a1] x]. bnd H u Hu. injection H as <- <- <-.
  destruct (is_swap a0); [eapply sized_swap_loop|eapply sized_output_loop]; eauto.
Qed.

(** What an event does to the counters: nothing, trades, or the counters of a new pool. *)
Definition counts_kept (c c' : Exchange) : Prop :=
  (exists c1, ex_volumes c' = ex_volumes c1 /\ (forall pid, tokens_at c1 pid = tokens_at c pid) /\
     (counters_sized c -> few_pools c -> counters_sized c1)) \/
  (exists p, ex_pools c' = ex_pools c ++ [p] /\ 
     ex_volumes c' = <[N.of_nat (length (ex_pools c)) mod W32 := repeat (0, 0) (length (pl_tokens p))]> (ex_volumes c)).
Lemma kept_volumes c c' : ex_volumes c' = ex_volumes c -> counts_kept c c'.
Proof. intros H. left. exists c. auto. Qed.
Lemma kept_execute c e acc r l prev skip c1 acc' res c' :
  ex_wf (e_now e) c -> e_now e < 2 ^ 64 -> ac_disjoint acc ->
  ex_execute c e acc r l prev skip = Some (c1, acc', res) -> ex_volumes c' = ex_volumes c1 -> counts_kept c c'.
Proof.
  intros Hwf HW Hd H Hv. left. exists c1. split; [done|]. split.
  - apply swap_frame_tokens. apply ex_execute_moved in H as (_ & Hs & _); auto.
  - eapply sized_execute; eauto.
Qed.
Lemma ex_call_kept c e x c' ps : ex_wf (e_now e) c -> e_now e < 2 ^ 64 -> ex_call c e x = Some (c', ps) -> counts_kept c c'.
Proof.
  intros Hwf HW H. destruct (is_settings x) eqn:Es; [apply settings_call in H as [(_ & _ & _ & _ & Hv) _]; [now apply kept_volumes|done]|].
  call_cases x Es H; try (apply kept_volumes; reflexivity).
  1-2: right; exists p'; split; [reflexivity|]; subst; reflexivity.
  1: eapply kept_execute; [done|done| |exact Hx|reflexivity]; eapply ex_wf_account; eauto.
  1: match goal with H : va_take _ _ _ = Some _ |- _ => apply va_take_spec in H as (_ & Hv & _); [|eapply ex_wf_account; eauto|apply ac_new_disjoint] end;
     eapply kept_execute; [done|done| |exact Hx|reflexivity]; apply Hv.
  all: eapply kept_execute; [done|done| |exact Hx|reflexivity]; eapply ex_wf_account; eauto.
Qed.
Lemma ex_call_adds c e x c' ps : adds_pool (EvCall e x) = true -> ex_call c e x = Some (c', ps) ->
  exists p, ex_pools c' = ex_pools c ++ [p] /\
     ex_volumes c' = <[N.of_nat (length (ex_pools c)) mod W32 := repeat (0, 0) (length (pl_tokens p))]> (ex_volumes c).
Proof.
  intros Ha H. destruct x; try discriminate Ha; cbn [ex_call] in H; call_inv H; exists p'; (split; [reflexivity|]; subst; reflexivity).
Qed.
Lemma ex_ft_on_transfer_kept c e s x m c' ps : ex_wf (e_now e) c -> e_now e < 2 ^ 64 ->
  ex_ft_on_transfer c e s x m = Some (c', ps) -> counts_kept c c'.
Proof.
  intros Hwf HW H. unfold ex_ft_on_transfer in H. cbv zeta in H. grd H. grd H.
  assert (Hdir : forall r l skip c1 outs c2, ex_direct c e (e_caller e) x r l skip = Some (c1, outs) -> ex_volumes c2 = ex_volumes c1 -> counts_kept c c2).
  { intros r l skip c1 outs c2 Hd Hv. apply ex_direct_inv in Hd as (va & prev & va' & res & Hdp & Hx & _). eapply kept_execute; [done|done| |exact Hx|done].
    apply ac_deposit_spec in Hdp as (Hf & _); [apply Hf|apply ac_new_disjoint]. }
  destruct m as [|r l echo su rc skip|r l infos skip].
  - grd H. bnd H c1 H1. injection H as <- <-. apply ex_deposit_inv in H1 as (acc & acc' & _ & _ & _ & _ & ->). now apply kept_volumes.
  - grd H. grd H. bnd H u Hu. bnd H d Hd. destruct d as [c1 outs]. grd H. injection H as <- <-. eapply Hdir; eauto.
  - bnd H c1 H1. injection H as <- <-. apply ex_hot_zap_inv in H1 as (acc & ts & c2 & outs & m & c3 & m' & acc' & _ & _ & _ & _ & _ & _ & Hd & _ & Hz & _ & _ & _ & ->).
    eapply Hdir; [exact Hd|]. apply ex_zap_loop_volumes in Hz. exact Hz.
Qed.
Lemma happens_kept w ev now c c' : ex_wf now c -> happens w ev now c c' -> counts_kept c c'.
Proof.
  intros Hwf H.
  destruct H as [|e x ps c' Hev He HW Hc H|e s x m ps c' He HW H|e s t x c' He H|i id s r x ret c' Hi' H|i e act s pid x fee ok ps c' He Hi' H|o c' H].
  - now apply kept_volumes.
  - subst. eapply ex_call_kept; eauto.
  - subst. eapply ex_ft_on_transfer_kept; eauto.
  - apply kept_volumes. now destruct H.
  - apply kept_volumes. apply ex_mft_resolve_inv in H as [[-> _]|(bal & _ & _ & _ & H)]; [done|].
    apply ex_mft_transfer_inv in H as (Hne & _ & H). destruct (mft_pool_of id).
    + now destruct H as (p & p' & _ & _ & _ & _ & ->).
    + now destruct H as (sa & sa' & ra & ra' & Hsa & Hra & Hw & Hdp & _ & _ & ->).
  - apply kept_volumes. apply ex_callback_shadow_inv in H as [(_ & _ & -> & ->)|[(_ & Hc & -> & acc & acc1 & Ha & Hu & _ & ->)|(_ & acc & acc1 & Ha & Hu & _ & -> & ->)]]; done.
  - apply kept_volumes. unfold ex_oracle in H. bnd H r Hr. now injection H as <-.
Qed.
Lemma same_tokens c c' : pools_extend c c' -> length (ex_pools c') = length (ex_pools c) -> forall pid, tokens_at c' pid = tokens_at c pid.
Proof.
  intros Hx Hl pid. unfold tokens_at. destruct (ex_pool c pid) as [p|] eqn:E.
  - destruct (Hx _ _ E) as (p' & E' & _ & Ht & _). change (ex_pool c' pid = Some p') in E'. rewrite E'. cbn. now rewrite Ht.
  - assert (E' : ex_pool c' pid = None); [|now rewrite E']. unfold ex_pool in *. apply lookup_ge_None. apply lookup_ge_None in E. now rewrite Hl.
Qed.
Lemma sized_step w ev w' : w_ok w -> w_step w ev = Some w' -> few_pools (w_ex w') -> counters_sized (w_ex w) -> counters_sized (w_ex w') /\ few_pools (w_ex w).
Proof.
  intros Hok Hs Hf' Hsz. pose proof (w_step_happens _ _ _ Hs) as [Hn Hh]. pose proof (ex_wf_later _ _ _ Hn (proj1 Hok)) as Hwf'.
  pose proof (happens_kept _ _ _ _ _ Hwf' Hh) as Hk. pose proof (w_step_any _ _ _ Hok Hs) as (_ & _ & (_ & Hx & _)).
  assert (Hlen : (length (ex_pools (w_ex w)) <= length (ex_pools (w_ex w')))%nat).
  { pose proof (C38_consecutive _ _ _ Hok Hs) as HC. destruct ev as [e x| | | | | | | | | |]; try lia.
    destruct x; try lia; destruct HC as (p & -> & _); rewrite app_length; lia. }
  assert (Hf : few_pools (w_ex w)) by (unfold few_pools in *; lia). split; [|done].
  assert (Hadd : forall p, ex_pools (w_ex w') = ex_pools (w_ex w) ++ [p] ->
    ex_volumes (w_ex w') = <[N.of_nat (length (ex_pools (w_ex w))) mod W32 := repeat (0, 0) (length (pl_tokens p))]> (ex_volumes (w_ex w)) -> counters_sized (w_ex w')).
  { clear - Hsz Hf'. intros p Hp Hv key v q Hl Hq. unfold few_pools in Hf'. rewrite Hp, app_length in Hf'. cbn [length] in Hf'. rewrite Hv, N.mod_small in Hl by lia.
    unfold ex_pool in Hq. rewrite Hp in Hq. destruct (decide (key = N.of_nat (length (ex_pools (w_ex w))))) as [->|Hne].
    + rewrite lookup_insert in Hl. injection Hl as <-. rewrite Nat2N.id, lookup_app_r, Nat.sub_diag in Hq by lia. cbn in Hq. injection Hq as <-. apply repeat_length.
    + rewrite lookup_insert_ne in Hl by done. rewrite lookup_app_l in Hq; [eapply Hsz; eauto|].
      apply lookup_lt_Some in Hq. rewrite app_length in Hq. cbn [length] in Hq. lia. }
  destruct (adds_pool ev) eqn:Ea.
  - destruct ev as [e x| | | | | | | | | |]; try discriminate Ea. unfold w_step in Hs. cbv zeta in Hs. bnd Hs u Hu. bnd Hs u' Hu'. bnd Hs q Hq. destruct q as [c' ps].
    injection Hs as <-. destruct (w_queue_ex w c' (w_hold w) (w_flights w) ps (e_now e)) as (E & F & _). rewrite E in *.
    apply ex_call_adds in Hq as (p & Hp & Hv); [|done]. eapply Hadd; eauto.
  - destruct Hk as [(c1 & Hv & Ht & H1)|(p & Hp & Hv)]; [|eapply Hadd; eauto].
    specialize (H1 Hsz Hf). pose proof (happens_length _ _ _ _ _ Hwf' Hh Ea) as Hl. eapply sized_alike; [exact H1|exact Hv|].
    intros pid. rewrite Ht. now apply same_tokens.
Qed.
Lemma sized_reach w0 w : w_ok w0 -> counters_sized (w_ex w0) -> w_reach w0 w -> few_pools (w_ex w) -> counters_sized (w_ex w).
Proof.
  intros Hok H0 H. induction H as [|w ev w' Hr IH Hs]; [done|]. intros Hf.
  assert (Hw : w_ok w) by (eapply w_reach_ok; eauto).
  assert (Hfw : few_pools (w_ex w)).
  { pose proof (C38_consecutive _ _ _ Hw Hs) as HC. unfold few_pools in *. destruct ev as [e x| | | | | | | | | |]; try lia.
    destruct x; try lia; destruct HC as (p & E & _); rewrite E, app_length in Hf; lia. }
  apply (sized_step w ev w'); auto.
Qed.

(** ** Steps of a swap *)
Lemma W128_pow : W128 = 2 ^ 128. Proof. reflexivity. Qed.
Lemma W256_pow : W256 = 2 ^ 256. Proof. reflexivity. Qed.
Lemma vol_update_intro v ii io a b :
  (ii < length v)%nat -> (io < length v)%nat -> a < W128 -> b < W128 ->
  Forall (fun x => fst x + 2 ^ 128 <= 2 ^ 256 /\ snd x + 2 ^ 128 <= 2 ^ 256) v -> exists v', vol_update v ii io a b = Some v'.
Proof.
  intros Hi Ho Ha Hb HF. unfold vol_update. destruct (lookup_lt_is_Some_2 v ii Hi) as [[x y] E]. rewrite E. cbn [mbind option_bind].
  pose proof (Forall_lookup_1 _ _ _ _ HF E) as [B1 _]. cbn [fst] in B1. rewrite <- W128_pow in B1. rewrite <- W256_pow in B1.
  rewrite cadd_intro by lia. cbn [mbind option_bind]. set (v1 := <[ii := (x + a, y)]> v).
  destruct (lookup_lt_is_Some_2 v1 io) as [[x2 y2] E2]; [unfold v1; now rewrite insert_length|]. rewrite E2. cbn [mbind option_bind].
  assert (B2 : y2 + W128 <= W256).
  { unfold v1 in E2. destruct (decide (ii = io)) as [<-|Hne].
    - rewrite list_lookup_insert in E2 by done. injection E2 as <- <-. pose proof (Forall_lookup_1 _ _ _ _ HF E) as [_ B]. cbn [snd] in B. now rewrite W128_pow, W256_pow.
    - rewrite list_lookup_insert_ne in E2 by done. pose proof (Forall_lookup_1 _ _ _ _ HF E2) as [_ B]. cbn [snd] in B. now rewrite W128_pow, W256_pow. }
  rewrite cadd_intro by lia. cbn [mbind option_bind]. eauto.
Qed.

Lemma pl_swap_quoted p rs now ti x to mn f fq q out :
  pl_wf p -> pl_exact p to -> admin_fee_bps fq = admin_fee_bps f -> referral_info fq = None ->
  (forall rid rfee, referral_info f = Some (rid, rfee) -> rfee <= FEE_DIVISOR) -> mn <= out ->
  pl_swap p rs now ti x to 0 fq true = Some (q, out) -> exists p', pl_swap p rs now ti x to mn f false = Some (p', out).
Proof.
  intros Hwf Hex Hb Hn Hr Hmn H. destruct p as [s|s]; cbn [pl_swap pl_wf pl_exact] in *; bnd H y Hy; destruct y as [q' o]; injection H as <- <-.
  - destruct (proj1 (quote_eq s ti x to f fq o Hwf Hb Hn Hr) (ex_intro _ _ Hy)) as [q2 H2].
    assert (H3 : sp_swap s ti x to mn f false = Some (q2, o)).
    { unfold sp_swap in H2 |- *. grd H2. rewrite ensure_intro by done. cbn [mbind option_bind]. bnd H2 i Hi. rewrite Hi. cbn [mbind option_bind].
      bnd H2 j Hj. rewrite Hj. cbn [mbind option_bind]. bnd H2 o2 Ho. rewrite Ho. cbn [mbind option_bind].
      grd H2. bnd H2 q3 Hq3. injection H2 as -> ->. rewrite ensure_intro by now apply N.leb_le. cbn [mbind option_bind]. now rewrite Hq3. }
    rewrite H3. cbn. eauto.
  - eapply (st_swap_indep _ _ _ _ _ _ _ _ _ _ mn f false) in Hy as (p'' & Hy & _); eauto. rewrite Hy. cbn. eauto.
Qed.
Lemma pl_swap_by_output_quoted p ti x to mx f fq q inp :
  pl_wf p -> admin_fee_bps fq = admin_fee_bps f -> referral_info fq = None ->
  (forall rid rfee, referral_info f = Some (rid, rfee) -> rfee <= FEE_DIVISOR) -> (forall m, mx = Some m -> inp <= m) ->
  pl_swap_by_output p ti x to None fq true = Some (q, inp) -> exists p', pl_swap_by_output p ti x to mx f false = Some (p', inp).
Proof.
  intros Hwf Hb Hn Hr Hmx H. destruct p as [s|s]; cbn [pl_swap_by_output pl_wf] in *; [|discriminate]. bnd H y Hy; destruct y as [q' o]; injection H as <- <-.
  destruct (proj1 (quote_by_output_eq s ti x to f fq o Hwf Hb Hn Hr) (ex_intro _ _ Hy)) as [q2 H2].
  assert (H3 : sp_swap_by_output s ti x to mx f false = Some (q2, o)).
  { unfold sp_swap_by_output in H2 |- *. grd H2. rewrite ensure_intro by done. cbn [mbind option_bind]. bnd H2 i Hi. rewrite Hi. cbn [mbind option_bind].
    bnd H2 j Hj. rewrite Hj. cbn [mbind option_bind]. bnd H2 o2 Ho. rewrite Ho. cbn [mbind option_bind].
    grd H2. bnd H2 q3 Hq3. injection H2 as -> ->. rewrite ensure_intro. 2: { destruct mx; [|done]. apply N.leb_le. auto. }
    cbn [mbind option_bind]. now rewrite Hq3. }
  rewrite H3. cbn. eauto.
Qed.
Lemma referral_small w0 w r a f : referrals_bounded (ex_cfg (w_ex w0)) -> w_reach w0 w -> ex_referral (w_ex w) r = Some (a, f) -> f <= FEE_DIVISOR.
Proof.
  intros H0 Hr H. destruct (C68_protocol_fee _ _ Hr) as [_ Hb]. specialize (Hb H0). unfold ex_referral in H. destruct r as [b|]; [|discriminate].
  destruct (cf_referrals (ex_cfg (w_ex w)) !! b) as [g|] eqn:E; [|discriminate]. injection H as <- <-. apply Hb in E. unfold FEE_DIVISOR. lia.
Qed.
Lemma position_lt ti ts i : position ti ts = Some i -> (i < length ts)%nat.
Proof. intros H. apply position_lookup in H. now apply lookup_lt_Some in H. Qed.

Lemma position_elem t l : t ∈ l -> exists i, position t l = Some i.
Proof. intros H. unfold position. destruct (position_from 0 t l) as [i|] eqn:E; [eauto|]. apply position_from_None in E. contradiction. Qed.

Lemma pl_swap_view_out p rs now ti x to mn f v q o : pl_swap p rs now ti x to mn f v = Some (q, o) -> to ∈ pl_tokens p.
Proof.
  intros Hy. destruct p as [s|s]; cbn [pl_swap pl_tokens] in *; bnd Hy z Hz; destruct z as [s' o'].
  - apply sp_swap_inv in Hz as (_ & _ & i & j & _ & _ & _ & Hj & _). apply position_lookup in Hj. now apply elem_of_list_lookup_2 in Hj.
  - unfold st_swap in Hz. grd Hz. bnd Hz i Hi. bnd Hz j Hj. clear - Hj. unfold st_token_index in Hj. apply position_lookup in Hj. now apply elem_of_list_lookup_2 in Hj.
Qed.

(** One trade with a pool as seen by the exchange. *)
Lemma ex_pool_swap_intro w0 w e pid p ti x to mn r out :
  w_start w0 -> records_sound w0 -> counters_sized (w_ex w0) -> referrals_bounded (ex_cfg (w_ex w0)) -> w_reach w0 w ->
  few_pools (w_ex w) -> counters_room (w_ex w) pid ->
  w_now w <= e_now e < 2 ^ 32 * 10 ^ 9 -> ex_pool (w_ex w) pid = Some p -> (forall t, t ∈ pl_tokens p -> pl_exact p t) ->
  (is_Some (ex_twap (w_ex w) !! pid) -> one_share p < pl_supply p -> leaves_enough p (one_share p)) ->
  v_get_return (w_ex w) (e_now e) pid ti x to = Some out -> mn <= out -> x < W128 -> out < W128 ->
  exists c', ex_pool_swap (w_ex w) e pid ti x to mn (ex_referral (w_ex w) r) = Some (c', out).
Proof.
  intros H0 Hrec0 Hsz0 Href0 Hreach Hfew Hroom Hn Hp Hex Hobs Hq Hmn Hx Ho.
  pose proof (w_reach_ok _ _ (w_start_ok _ H0) Hreach) as Hok. pose proof (C63_history _ _ (w_start_ok _ H0) Hrec0 Hreach) as Hrec.
  pose proof (sized_reach _ _ (w_start_ok _ H0) Hsz0 Hreach Hfew) as Hsz.
  pose proof (pl_reachable_wf _ _ (ex_wf_pool _ _ _ _ (proj1 Hok) Hp)) as Hwf.
  destruct (ex_update_twap_intro w e pid p) as [c1 Hc1]; auto.
  unfold v_get_return in Hq. rewrite Hp in Hq. cbn [mbind option_bind] in Hq. bnd Hq y Hy. destruct y as [q o]. injection Hq as ->.
  assert (Hto : to ∈ pl_tokens p).
  { eapply pl_swap_view_out; eauto. }
  destruct (pl_swap_quoted p (ex_rates (w_ex w)) (e_now e) ti x to mn (ex_fees_ref (w_ex w) (ex_referral (w_ex w) r)) (ex_fees (w_ex w)) q out) as [p' Hp']; auto.
  { intros rid rfee E. exact (referral_small w0 w r rid rfee Href0 Hreach E). }
  pose proof (pl_swap_spec _ _ _ _ _ _ _ _ _ _ Hwf Hp') as (Hst & _ & _ & Hi & Hj & _). apply pl_step_same in Hst as (_ & Htok & _); [|done].
  unfold ex_pool_swap. rewrite Hc1. cbn [mbind option_bind]. apply ex_update_twap_frame in Hc1 as (tw & ->).
  change (ex_pool (ex_set_twap (w_ex w) tw) pid) with (ex_pool (w_ex w) pid). rewrite Hp. cbn [mbind option_bind].
  change (ex_rates (ex_set_twap (w_ex w) tw)) with (ex_rates (w_ex w)).
  change (ex_fees_ref (ex_set_twap (w_ex w) tw) (ex_referral (w_ex w) r)) with (ex_fees_ref (w_ex w) (ex_referral (w_ex w) r)).
  rewrite Hp'. cbn [mbind option_bind]. rewrite Htok.
  destruct (position_elem ti (pl_tokens p) Hi) as [ii Eii]. destruct (position_elem to (pl_tokens p) Hj) as [jj Ejj].
  rewrite Eii. cbn [mbind option_bind].
  assert (Hio : exists io, (match p' with PSimple _ => Some ii | PStable _ => position to (pl_tokens p) end) = Some io /\ (io < length (pl_tokens p))%nat).
  { destruct p'; [exists ii|exists jj]; (split; [done|eapply position_lt; eauto]). }
  destruct Hio as (io & Eio & Lio). rewrite Eio. cbn [mbind option_bind].
  change (ex_volumes_of (ex_set_twap (w_ex w) tw) pid p) with (ex_volumes_of (w_ex w) pid p).
  pose proof (volumes_of_sized _ _ _ Hsz Hfew Hp) as Hl.
  destruct (vol_update_intro (ex_volumes_of (w_ex w) pid p) ii io x out) as [v Hv]; auto.
  { rewrite Hl. eapply position_lt; eauto. }
  { now rewrite Hl. }
  { unfold ex_volumes_of. rewrite (few_pools_id _ _ _ Hfew Hp). destruct (ex_volumes (w_ex w) !! pid) as [v|] eqn:E; [now apply Hroom|].
    apply Forall_forall. intros y Hy'. apply elem_of_list_In, repeat_spec in Hy'. subst y. cbn [fst snd]. split; vm_compute; discriminate. }
  rewrite Hv. cbn [mbind option_bind]. eauto.
Qed.

Lemma ex_pool_swap_by_output_intro w0 w e pid p ti x to mx r inp :
  w_start w0 -> records_sound w0 -> counters_sized (w_ex w0) -> referrals_bounded (ex_cfg (w_ex w0)) -> w_reach w0 w ->
  few_pools (w_ex w) -> counters_room (w_ex w) pid ->
  w_now w <= e_now e < 2 ^ 32 * 10 ^ 9 -> ex_pool (w_ex w) pid = Some p -> (forall t, t ∈ pl_tokens p -> pl_exact p t) ->
  (is_Some (ex_twap (w_ex w) !! pid) -> one_share p < pl_supply p -> leaves_enough p (one_share p)) ->
  v_get_return_by_output (w_ex w) pid ti x to = Some inp -> (forall m, mx = Some m -> inp <= m) -> x < W128 -> inp < W128 ->
  exists c', ex_pool_swap_by_output (w_ex w) e pid ti x to mx (ex_referral (w_ex w) r) = Some (c', inp).
Proof.
  intros H0 Hrec0 Hsz0 Href0 Hreach Hfew Hroom Hn Hp Hex Hobs Hq Hmn Hx Ho.
  pose proof (w_reach_ok _ _ (w_start_ok _ H0) Hreach) as Hok. pose proof (C63_history _ _ (w_start_ok _ H0) Hrec0 Hreach) as Hrec.
  pose proof (sized_reach _ _ (w_start_ok _ H0) Hsz0 Hreach Hfew) as Hsz.
  pose proof (pl_reachable_wf _ _ (ex_wf_pool _ _ _ _ (proj1 Hok) Hp)) as Hwf.
  destruct (ex_update_twap_intro w e pid p) as [c1 Hc1]; auto.
  unfold v_get_return_by_output in Hq. rewrite Hp in Hq. cbn [mbind option_bind] in Hq. bnd Hq y Hy. destruct y as [q o]. injection Hq as ->.
  destruct (pl_swap_by_output_quoted p ti x to mx (ex_fees_ref (w_ex w) (ex_referral (w_ex w) r)) (ex_fees (w_ex w)) q inp) as [p' Hp']; auto.
  { intros rid rfee E. exact (referral_small w0 w r rid rfee Href0 Hreach E). }
  pose proof (pl_swap_by_output_spec _ (ex_rates (w_ex w)) (e_now e) _ _ _ _ _ _ _ Hwf Hp') as (Hst & _ & _ & Hi & Hj & _). apply pl_step_same in Hst as (_ & Htok & _); [|done].
  unfold ex_pool_swap_by_output. rewrite Hc1. cbn [mbind option_bind]. apply ex_update_twap_frame in Hc1 as (tw & ->).
  change (ex_pool (ex_set_twap (w_ex w) tw) pid) with (ex_pool (w_ex w) pid). rewrite Hp. cbn [mbind option_bind].
  change (ex_fees_ref (ex_set_twap (w_ex w) tw) (ex_referral (w_ex w) r)) with (ex_fees_ref (w_ex w) (ex_referral (w_ex w) r)).
  rewrite Hp'. cbn [mbind option_bind]. rewrite Htok.
  destruct (position_elem ti (pl_tokens p) Hi) as [ii Eii]. destruct (position_elem to (pl_tokens p) Hj) as [jj Ejj].
  rewrite Eii. cbn [mbind option_bind].
  assert (Hio : exists io, (match p' with PSimple _ => Some ii | PStable _ => position to (pl_tokens p) end) = Some io /\ (io < length (pl_tokens p))%nat).
  { destruct p'; [exists ii|exists jj]; (split; [done|eapply position_lt; eauto]). }
  destruct Hio as (io & Eio & Lio). rewrite Eio. cbn [mbind option_bind].
  change (ex_volumes_of (ex_set_twap (w_ex w) tw) pid p) with (ex_volumes_of (w_ex w) pid p).
  pose proof (volumes_of_sized _ _ _ Hsz Hfew Hp) as Hl.
  destruct (vol_update_intro (ex_volumes_of (w_ex w) pid p) ii io inp x) as [v Hv]; auto.
  { rewrite Hl. eapply position_lt; eauto. }
  { now rewrite Hl. }
  { unfold ex_volumes_of. rewrite (few_pools_id _ _ _ Hfew Hp). destruct (ex_volumes (w_ex w) !! pid) as [v|] eqn:E; [now apply Hroom|].
    apply Forall_forall. intros y Hy'. apply elem_of_list_In, repeat_spec in Hy'. subst y. cbn [fst snd]. split; vm_compute; discriminate. }
  rewrite Hv. cbn [mbind option_bind]. eauto.
Qed.

Lemma no_degen_refresh c e pid p ti x to mn r c1 out now l :
  ex_wf now c -> now <= e_now e -> e_now e < 2 ^ 64 -> ex_pool c pid = Some p -> pl_kind p <> STABLE_SWAP KDegen ->
  ex_pool_swap c e pid ti x to mn r = Some (c1, out) -> (forall a, In a l -> act_pool a = pid) ->
  (ts ← ex_degen_tokens c1 l; rs_batch_update_request (ex_rates c1) ts) = Some tt.
Proof.
  intros Hwf Hle HW Hp Hk H Hl. apply (ex_pool_swap_spec now) in H as (_ & (_ & _ & _ & _ & _ & HF) & _); auto.
  assert (E : ex_degen_tokens c1 l = Some []).
  { induction l as [|a l IH]; [done|]. cbn [ex_degen_tokens]. rewrite (Hl a) by now left. rewrite IH by (intros b Hb; apply Hl; now right).
    eapply Forall2_lookup_l in HF as (p1 & Hp1 & (Hkk & _) & _); [|exact Hp]. unfold ex_pool. rewrite Hp1. cbn [mbind option_bind].
    rewrite Hkk. destruct (pl_kind p) as [|[]]; try done. }
  rewrite E. cbn [mbind option_bind]. reflexivity.
Qed.

Lemma no_degen_refresh_by_output c e pid p ti x to mx r c1 inp now l :
  ex_wf now c -> now <= e_now e -> e_now e < 2 ^ 64 -> ex_pool c pid = Some p ->
  ex_pool_swap_by_output c e pid ti x to mx r = Some (c1, inp) -> (forall a, In a l -> act_pool a = pid) ->
  (ts ← ex_degen_tokens c1 l; rs_batch_update_request (ex_rates c1) ts) = Some tt.
Proof.
  intros Hwf Hle HW Hp H Hl. pose proof H as H0. apply (ex_pool_swap_by_output_inv now) in H0 as (q & q' & _ & _ & _ & Hq & Hs & _); auto.
  rewrite Hp in Hq. injection Hq as <-.
  apply (ex_pool_swap_by_output_spec now) in H as (_ & (_ & _ & _ & _ & _ & HF) & _); auto.
  assert (E : ex_degen_tokens c1 l = Some []).
  { induction l as [|a l IH]; [done|]. cbn [ex_degen_tokens]. rewrite (Hl a) by now left. rewrite IH by (intros b Hb; apply Hl; now right).
    eapply Forall2_lookup_l in HF as (p1 & Hp1 & (Hkk & _) & _); [|exact Hp]. unfold ex_pool. rewrite Hp1. cbn [mbind option_bind].
    rewrite Hkk. destruct p; [done|discriminate Hs]. }
  rewrite E. cbn [mbind option_bind]. reflexivity.
Qed.
