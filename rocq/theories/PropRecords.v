(** * C63: cumulative records of the exchange's pools, over all histories *)
From Verif Require Import Base BaseLemmas SimplePool SimplePoolProofs SpecSimple SimplePoolInv StableMath StablePool
  SpecStable StablePoolProofs StablePoolInv Rates Echo Twap SpecTwap PropTwap.
From Verif Require Import PropSimple PropStable.
From Verif Require Import Account Pool Exchange SpecExchange AccountProofs PoolFacts
  ExchangeProofs ExchangeInv ExchangeEffect ExchangeFrames SpecWorld WorldProofs ExExample PropWorld SpecSwap SpecHistory HistoryProofs
  TwapInv SpecRecords.

(** ** Computed and specified amounts *)
Lemma sp_redeem_all_value S s rs ms als ls : sp_redeem_all S s rs ms = Some (als, ls) -> als = (fun r => r * s / S) <$> rs.
Proof.
  revert ms als ls. induction rs as [|r rs IH]; intros [|m ms] als ls H; try discriminate H; cbn [sp_redeem_all] in H.
  - now injection H as <- <-.
  - apply bind_Some in H as ([a l] & Ha & H). apply bind_Some in H as ([als' ls'] & Hr & H). injection H as <- <-.
    apply IH in Hr as ->. unfold sp_redeem in Ha. bnd Ha x Hx. bnd Ha q Hq. bnd Ha am Ham. grd Ha. bnd Ha lf Hl. injection Ha as <- <-.
    apply cmul_Some in Hx as [-> _]. apply cdiv_Some in Hq as [-> _]. apply fit_Some in Ham as [-> _]. reflexivity.
Qed.
Lemma from_c_value k d c a : from_c k d c = Some a -> a = in_units (target_decimal k) d c.
Proof.
  unfold from_c, in_units. intros H. destruct (d <=? target_decimal k); bnd H f Hf; apply cpow_Some in Hf as [-> _].
  - now apply cdiv_Some in H as [-> _].
  - now apply cmul_Some in H as [-> _].
Qed.
Lemma st_redeem_all_value k S s ds cs ms als ls :
  st_redeem_all k S s ds cs ms = Some (als, ls) -> als = zip_with (fun d c => in_units (target_decimal k) d (c * s / S)) ds cs.
Proof.
  revert cs ms als ls. induction ds as [|d ds IH]; intros [|c cs] [|m ms] als ls H; try discriminate H; cbn [st_redeem_all] in H.
  - now injection H as <- <-.
  - apply bind_Some in H as ([a l] & Ha & H). apply bind_Some in H as ([als' ls'] & Hr & H). injection H as <- <-.
    apply IH in Hr as ->. unfold st_redeem in Ha. bnd Ha x Hx. bnd Ha q Hq. bnd Ha r Hr'. bnd Ha lf Hl. grd Ha. bnd Ha am Ham. grd Ha. injection Ha as <- <-.
    apply cmul_Some in Hx as [-> _]. apply cdiv_Some in Hq as [-> _]. apply fit_Some in Hr' as [-> _].
    apply from_c_value in Ham as ->. reflexivity.
Qed.
Lemma kept_is_target k : kept_decimals k = target_decimal k. Proof. now destruct k. Qed.
Lemma unit_amounts_value c pid u :
  ex_unit_amounts c pid = Some u -> exists p, ex_pool c pid = Some p /\ u = if one_share p <? pl_supply p then Some (stands_for p) else None.
Proof.
  unfold ex_unit_amounts. intros H. bnd H p Hp. exists p. split; [done|]. change (one_share p) with (10 ^ pl_share_decimal p) at 1.
  destruct (10 ^ pl_share_decimal p <? pl_supply p) eqn:E; [|now injection H as <-].
  bnd H q Hq. destruct q as [p' l]. injection H as <-. f_equal. unfold pl_remove_liquidity in Hq. destruct p as [q|q]; cbn [stands_for];
    bnd Hq r Hr; destruct r as [q' l']; injection Hq as <- <-.
  - unfold sp_remove_liquidity in Hr. grd Hr. bnd Hr m Hm. bnd Hr y Hy. destruct y as [am rs]. bnd Hr sy Hsy. injection Hr as <- <-.
    eapply sp_redeem_all_value; eauto.
  - unfold st_remove_by_shares in Hr. grd Hr. bnd Hr m Hm. bnd Hr y Hy. destruct y as [am rs]. bnd Hr sy Hsy. injection Hr as <- <-.
    rewrite kept_is_target. eapply st_redeem_all_value; eauto.
Qed.

(** ** One event *)
Lemma tw_done_step now c c' pid i p :
  tw_done now c c' -> ex_twap c !! pid = Some i -> ex_pool c pid = Some p -> one_share p < pl_supply p ->
  ex_twap c' !! pid = Some i \/
  exists i', ex_twap c' !! pid = Some i' /\ twap_update i (nano_to_sec now) (stands_for p) (cf_interval (ex_cfg c)) = Some i'.
Proof.
  intros H Hi Hp Hs. destruct (H pid) as [A|[[A _]|[(j & am & j' & A & B & C & D)|(A & _)]]].
  - left. now rewrite A.
  - congruence.
  - right. exists j'. rewrite Hi in A. injection A as <-. split; [done|].
    apply unit_amounts_value in B as (p' & Hp' & B). rewrite Hp in Hp'. injection Hp' as <-.
    rewrite (proj2 (N.ltb_lt _ _) Hs) in B. now injection B as ->.
  - exfalso. apply unit_amounts_value in A as (p' & Hp' & B). rewrite Hp in Hp'. injection Hp' as <-.
    now rewrite (proj2 (N.ltb_lt _ _) Hs) in B.
Qed.
Lemma happens_twap w ev now c c' : switching ev = false -> happens w ev now c c' -> tw_done now c c'.
Proof.
  intros Hsw H. destruct H as [|e x ps c' Hev He HW Hc H|e s x m ps c' He HW H|e s t x c' He H|i id s r x ret c' Hi' H|i e act s pid x fee ok ps c' He Hi' H|o c' H].
  - now apply tw_same.
  - subst. cbn [switching] in Hsw. eapply ex_call_twap; eauto.
  - subst. eapply ex_ft_on_transfer_twap; eauto.
  - destruct H; apply tw_same; reflexivity.
  - apply tw_same. apply ex_mft_resolve_inv in H as [[-> _]|(bal & _ & _ & _ & H)]; [done|]. call_inv H; reflexivity.
  - apply tw_same. apply ex_callback_shadow_inv in H as [(_ & _ & -> & _)|[(_ & _ & _ & acc & acc1 & _ & _ & _ & ->)|(_ & acc & acc1 & _ & _ & _ & -> & _)]]; reflexivity.
  - apply tw_same. unfold ex_oracle in H. bnd H s Hs. injection H as <-. reflexivity.
Qed.

(** ** C63 *)
(** Whatever happens, the record of a pool with more than one share outstanding stays as it is or is
    extended by an observation, at the time of the event, of what a share stood for before the event. *)
Theorem C63_step w ev w' pid i p :
  w_step w ev = Some w' -> switching ev = false ->
  ex_twap (w_ex w) !! pid = Some i -> ex_pool (w_ex w) pid = Some p -> one_share p < pl_supply p ->
  ex_twap (w_ex w') !! pid = Some i \/
  exists i', ex_twap (w_ex w') !! pid = Some i' /\
    twap_update i (nano_to_sec (w_now w')) (stands_for p) (cf_interval (ex_cfg (w_ex w))) = Some i'.
Proof.
  intros Hs Hsw Hi Hp Hone. destruct (w_step_happens _ _ _ Hs) as [_ Hh]. eapply tw_done_step; eauto. eapply happens_twap; eauto.
Qed.
Print Assumptions C63_step.

(** Every record at every moment is the result of observations in order of time (so all theorems of C36
    apply to it), the last of them not later than now, with one amount for each token of its pool. *)
Definition records_sound (w : World) : Prop :=
  forall pid i, ex_twap (w_ex w) !! pid = Some i ->
  exists h p, twap_history h i /\ tw_last i <= w_now w / 10 ^ 9 /\ ex_pool (w_ex w) pid = Some p /\ length (tw_cum i) = length (pl_tokens p).

Lemma twap_update_length i now am iv i' : twap_update i now am iv = Some i' -> length (tw_cum i') = length (tw_cum i) /\ (tw_last i' = tw_last i \/ tw_last i' = now).
Proof.
  intros H. apply twap_update_cases in H as [[-> ->]|(cum & rl & _ & _ & _ & Hacc & Hl & Hc & _)]; [auto|].
  apply accumulate_spec in Hacc as [Hlen _]. rewrite Hc. auto.
Qed.
Lemma sec_le now : nano_to_sec now <= now / 10 ^ 9.
Proof. unfold nano_to_sec. apply N.mod_le. vm_compute. discriminate. Qed.
Lemma sec_small now : nano_to_sec now < W32.
Proof. unfold nano_to_sec. apply N.mod_lt. vm_compute. discriminate. Qed.
Lemma updates_sound now i i' : updates now i i' ->
  forall h, twap_history h i -> exists h', twap_history h' i' /\ length (tw_cum i') = length (tw_cum i) /\ (tw_last i' = tw_last i \/ tw_last i' = nano_to_sec now).
Proof.
  induction 1 as [|i1 am iv i2 _ IH Ham Hu]; intros h Hh; [eauto|].
  destruct (IH _ Hh) as (h1 & H1 & L1 & T1). pose proof (twap_update_length _ _ _ _ _ Hu) as [L2 T2].
  exists (mkObs (nano_to_sec now) am iv :: h1). split_and!; [|congruence|destruct T1, T2; (left; congruence) || (right; congruence)].
  eapply th_update; eauto. apply sec_small.
Qed.
Theorem C63_history w0 w : w_ok w0 -> records_sound w0 -> w_reach w0 w -> records_sound w.
Proof.
  intros Hok H0 Hr. assert (w_ok w /\ records_sound w) as [_ ?]; [|done].
  induction Hr as [|w ev w' Hr [IHok IH] Hs]; [done|].
  pose proof (w_step_any _ _ _ IHok Hs) as (Hok' & _ & (_ & Hx & _)). split; [done|].
  destruct (w_step_happens _ _ _ Hs) as [Hn Hh].
  assert (Hold : forall pid i, ex_twap (w_ex w) !! pid = Some i -> forall i', updates (w_now w') i i' ->
    exists h p, twap_history h i' /\ tw_last i' <= w_now w' / 10 ^ 9 /\ ex_pool (w_ex w') pid = Some p /\ length (tw_cum i') = length (pl_tokens p)).
  { intros pid i Hi i' Hu. destruct (IH _ _ Hi) as (h & p & A & B & C & D). destruct (updates_sound _ _ _ Hu _ A) as (h' & A' & L & T).
    destruct (Hx _ _ C) as (p' & Hp' & _ & Et & _). exists h', p'. split_and!; [done| |done|congruence].
    pose proof (sec_le (w_now w')). pose proof (N.div_le_mono (w_now w) (w_now w') (10 ^ 9) ltac:(done) Hn).
    destruct T as [->| ->]; lia. }
  intros pid i' Hi'. destruct (switching ev) eqn:Esw.
  - destruct ev as [e x| | | | | | | | | |]; try discriminate Esw. cbn [switching] in Esw. clear Hh.
    unfold w_step in Hs. cbv zeta in Hs. bnd Hs u Hu. grd Hs. bnd Hs q Hq. destruct q as [c' ps]. injection Hs as <-.
    destruct (w_queue_ex w c' (w_hold w) (w_flights w) ps (e_now e)) as (E1 & E2 & _). rewrite E1, E2 in *. clear E1 E2.
    destruct x; try discriminate Esw; cbn [ex_call] in Hq; apply quiet_inv in Hq as [Hq ->].
    + unfold ex_register_twap in Hq. bnd Hq u1 Hu1. grd Hq. bnd Hq un Hun. bnd Hq am Ham. subst un. injection Hq as <-. ex_cbn.
      cbn [ex_twap ex_set_twap] in Hi'. destruct (N.eq_dec pid pid0) as [->|Hne].
      * rewrite lookup_insert in Hi'. injection Hi' as <-. apply ex_unit_amounts_small in Hun as (p & Hp & Hsm & Hl).
        exists [mkObs (nano_to_sec (e_now e)) am 0], p. split_and!; [apply th_new; [apply sec_small|done]|apply sec_le|done|done].
      * rewrite lookup_insert_ne in Hi' by done. destruct (Hold _ _ Hi' _ (updates_refl _ _)) as (h & p & R). exists h, p. exact R.
    + unfold ex_unregister_twap in Hq. bnd Hq u1 Hu1. bnd Hq i0 Hi0. injection Hq as <-. ex_cbn.
      cbn [ex_twap ex_set_twap] in Hi'. apply lookup_delete_Some in Hi' as [_ Hi']. destruct (Hold _ _ Hi' _ (updates_refl _ _)) as (h & p & R). exists h, p. exact R.
  - pose proof (happens_twap _ _ _ _ _ Esw Hh pid) as [A|[[A B]|[(i & am & j' & A & B & C & D)|(A & i & j' & B & C & D)]]].
    + rewrite A in Hi'. eapply Hold; [exact Hi'|apply updates_refl].
    + congruence.
    + rewrite D in Hi'. injection Hi' as <-. eapply Hold; [exact A|]. eapply updates_step; [apply updates_refl| |exact C].
      now apply ex_unit_amounts_small in B as (p & _ & ? & _).
    + rewrite C in Hi'. injection Hi' as <-. eapply Hold; [exact B|exact D].
Qed.
Print Assumptions C63_history.
Theorem C63_deployed self owner farm burrow f r c now : ex_new self owner farm burrow f r = Some c -> records_sound (mkWorld c (fun _ => 0) ∅ 0 now).
Proof. unfold ex_new. intros H. bnd H fee Hfee. injection H as <-. intros pid i Hi. cbn [w_ex ex_twap] in Hi. now rewrite lookup_empty in Hi. Qed.
Print Assumptions C63_deployed.

(** ** Observation before change *)
Lemma transfer_stands p s r x p' : pl_share_transfer p s r x = Some p' -> stands_for p' = stands_for p.
Proof.
  unfold pl_share_transfer. destruct p as [q|q]; intros H; apply fmap_Some in H as (q' & H & ->).
  - unfold sp_share_transfer in H. cbv zeta in H. inv; subst. reflexivity.
  - unfold st_share_transfer in H. cbv zeta in H. inv; subst. reflexivity.
Qed.
Lemma register_stands p a p' : pl_share_register p a = Some p' -> stands_for p' = stands_for p.
Proof.
  unfold pl_share_register. destruct p as [q|q]; intros H; apply fmap_Some in H as (q' & H & ->).
  - unfold sp_share_register in H. inv; subst. reflexivity.
  - unfold st_share_register in H. inv; subst. reflexivity.
Qed.
Lemma unregister_stands p a p' : pl_share_unregister p a = Some p' -> stands_for p' = stands_for p.
Proof.
  unfold pl_share_unregister. destruct p as [q|q]; intros H; apply fmap_Some in H as (q' & H & ->).
  - unfold sp_share_unregister in H. inv; subst. reflexivity.
  - unfold st_share_unregister in H. inv; subst. reflexivity.
Qed.
Lemma fee_stands p fee : stands_for (pl_modify_total_fee p fee) = stands_for p.
Proof. destruct p; reflexivity. Qed.
Lemma ramp_stands p rs now a t p' : pl_ramp p rs now a t = Some p' -> stands_for p' = stands_for p.
Proof.
  unfold pl_ramp. destruct p as [q|q]; intros H; [done|]. apply fmap_Some in H as (q' & H & ->).
  unfold st_ramp_amplification in H. cbv zeta in H. bnd H t1 H1. grd H. bnd H t2 H2. grd H. bnd H rates H3. bnd H amp H4. grd H. grd H. inv; subst. reflexivity.
Qed.
Lemma stop_stands p rs now p' : pl_stop_ramp p rs now = Some p' -> stands_for p' = stands_for p.
Proof.
  unfold pl_stop_ramp. destruct p as [q|q]; intros H; [done|]. apply fmap_Some in H as (q' & H & ->).
  unfold st_stop_ramp in H. inv; subst. reflexivity.
Qed.

Definition tw_first (now : N) (c c' : Exchange) : Prop :=
  forall pid, (forall p p', ex_pool c pid = Some p -> ex_pool c' pid = Some p' -> stands_for p' = stands_for p) \/ tw_seen now c c' pid.
Lemma first_same now c c' : ex_pools c' = ex_pools c -> tw_first now c c'.
Proof. intros E pid. left. unfold ex_pool. rewrite E. intros p p' H1 H2. congruence. Qed.
Lemma first_put now c c1 c' pid p p' : ex_pools c' = ex_pools (ex_put_pool c1 pid p') -> ex_pools c1 = ex_pools c -> ex_pool c pid = Some p ->
  stands_for p' = stands_for p -> tw_first now c c'.
Proof.
  intros E E1 Hp Hs q. left. intros a a' Ha Ha'. unfold ex_pool in *. rewrite E in Ha'. ex_cbn. cbn [ex_pools ex_put_pool ex_set_pools] in Ha'. rewrite E1 in Ha'.
  destruct (decide (N.to_nat pid = N.to_nat q)) as [En|En].
  - rewrite <- En in *. rewrite list_lookup_insert in Ha' by eauto using lookup_lt_Some. congruence.
  - rewrite list_lookup_insert_ne in Ha' by done. congruence.
Qed.
Lemma first_append now c c' p : ex_pools c' = ex_pools c ++ [p] -> tw_first now c c'.
Proof.
  intros E pid. left. unfold ex_pool. rewrite E. intros a a' Ha Ha'. rewrite lookup_app_l in Ha' by eauto using lookup_lt_Some. congruence.
Qed.
Lemma first_mid now c c' c'' : tw_mid now c c' -> ex_pools c'' = ex_pools c' -> ex_twap c'' = ex_twap c' -> tw_first now c c''.
Proof.
  intros [_ H] E1 E2 pid. destruct (H pid) as [[_ A]|A]; [left|right; eapply tw_seen_twap; [|exact A]; now rewrite E2].
  unfold ex_pool in *. rewrite E1. intros p p' Hp Hp'. congruence.
Qed.
Lemma first_touch e c pid c1 p p' c' : ex_update_twap c e pid = Some c1 -> ex_pool c1 pid = Some p ->
  ex_pools c' = ex_pools (ex_put_pool c1 pid p') -> ex_twap c' = ex_twap c1 -> tw_first (e_now e) c c'.
Proof.
  intros H Hp E1 E2. pose proof (some_pool _ _ _ _ _ H Hp) as Hs.
  destruct (tw_mid_touch _ _ _ _ _ (tw_mid_refl _ _) H Hs) as (A & B & C).
  eapply first_mid; [eapply (tw_mid_put e c c1 pid p'); eauto|exact E1|exact E2].
Qed.
Lemma ex_call_first c e x c' ps : unobserved x = false -> switches x = false -> ex_call c e x = Some (c', ps) -> tw_first (e_now e) c c'.
Proof.
  intros Hun Hsw H. destruct (is_settings x) eqn:Es; [apply settings_call in H as [Hs _]; [apply first_same; apply Hs|done]|].
  destruct x; try discriminate Es; try discriminate Hun; clear Es Hsw Hun; cbn [ex_call] in H;
      try (apply quiet_inv in H as [H ->]); try (apply quiet2_inv in H as (res & H & ->)); try (apply keep2_inv in H as (res & H)).
  7:{ unfold ex_add_liquidity in H. grd H. grd H. bnd H c1 Hc1. bnd H p Hp. grd H. bnd H q Hq. destruct q as [[p' tk] sh]. grd H. bnd H acc Ha. bnd H acc' Ha'.
      bnd H c2 Hc2. bnd H qs Hqs. injection H as <- <- <-. unfold ex_save in Hc2. grd Hc2. injection Hc2 as <-.
      eapply first_touch; [exact Hc1|eauto|reflexivity|reflexivity]. }
  7:{ unfold ex_add_stable_liquidity in H. grd H. grd H. bnd H c1 Hc1. bnd H p Hp. grd H. bnd H q Hq. destruct q as [p' sh]. grd H. bnd H acc Ha. bnd H acc' Ha'.
      bnd H c2 Hc2. bnd H qs Hqs. injection H as <- <- <-. unfold ex_save in Hc2. grd Hc2. injection Hc2 as <-.
      eapply first_touch; [exact Hc1|eauto|reflexivity|reflexivity]. }
  7:{ unfold ex_remove_liquidity in H. grd H. grd H. bnd H c1 Hc1. bnd H p Hp. bnd H acc Ha. grd H. grd H. bnd H q Hq. destruct q as [p' am]. bnd H acc' Ha'.
      bnd H c2 Hc2. injection H as <- <-. unfold ex_save in Hc2. grd Hc2. injection Hc2 as <-.
      eapply first_touch; [exact Hc1|eauto|reflexivity|reflexivity]. }
  7:{ unfold ex_remove_by_tokens in H. grd H. grd H. bnd H c1 Hc1. bnd H p Hp. bnd H acc Ha. bnd H fr Hf. grd H. bnd H q Hq. destruct q as [p' am]. grd H. bnd H acc' Ha'.
      bnd H c2 Hc2. injection H as <- <-. unfold ex_save in Hc2. grd Hc2. injection Hc2 as <-.
      eapply first_touch; [exact Hc1|eauto|reflexivity|reflexivity]. }
  all: call_inv H; try (apply first_same; reflexivity); try (eapply first_append; reflexivity).
  all: try (eapply first_mid; [eapply tw_mid_execute; [apply tw_mid_refl|eassumption]|reflexivity|reflexivity]).
  all: eapply first_put; [reflexivity|reflexivity|eassumption|].
  all: first [eapply register_stands; eassumption|eapply unregister_stands; eassumption|eapply transfer_stands; eassumption|
    eapply ramp_stands; eassumption|eapply stop_stands; eassumption|apply fee_stands|idtac].
  all: match goal with Ht : pl_share_transfer _ _ _ _ = Some _ |- _ => rewrite <- (transfer_stands _ _ _ _ _ Ht) end.
  all: destruct unregister; [eapply unregister_stands; eassumption|].
  all: match goal with Hd : Some _ = Some ?q |- stands_for ?q = _ => injection Hd as -> end; reflexivity.
Qed.
Lemma tw_first_step now c c' pid i p p' :
  tw_first now c c' -> ex_twap c !! pid = Some i -> ex_pool c pid = Some p -> ex_pool c' pid = Some p' -> one_share p < pl_supply p ->
  stands_for p' = stands_for p \/
  exists i', ex_twap c' !! pid = Some i' /\ twap_update i (nano_to_sec now) (stands_for p) (cf_interval (ex_cfg c)) = Some i'.
Proof.
  intros H Hi Hp Hp' Hs. destruct (H pid) as [A|[[A _]|[(j & am & j' & A & B & C & D)|(A & _)]]].
  - left. eauto.
  - congruence.
  - right. exists j'. rewrite Hi in A. injection A as <-. split; [done|].
    apply unit_amounts_value in B as (p1 & Hp1 & B). rewrite Hp in Hp1. injection Hp1 as <-.
    rewrite (proj2 (N.ltb_lt _ _) Hs) in B. now injection B as ->.
  - exfalso. apply unit_amounts_value in A as (p1 & Hp1 & B). rewrite Hp in Hp1. injection Hp1 as <-.
    now rewrite (proj2 (N.ltb_lt _ _) Hs) in B.
Qed.
(** A call that changes what a share of a recorded pool stands for first observes what it stood for.
    Missing: redemptions by liquidations and of the exchange's own shares, which change it only by
    rounding, and liquidity added after an instant swap. *)
Theorem C63_observed_first_partial c e x c' ps pid i p p' :
  ex_call c e x = Some (c', ps) -> unobserved x = false -> switches x = false ->
  ex_twap c !! pid = Some i -> ex_pool c pid = Some p -> ex_pool c' pid = Some p' -> one_share p < pl_supply p ->
  stands_for p' = stands_for p \/
  exists i', ex_twap c' !! pid = Some i' /\ twap_update i (nano_to_sec (e_now e)) (stands_for p) (cf_interval (ex_cfg c)) = Some i'.
Proof. intros H Hu Hsw Hi Hp Hp' Hs. eapply tw_first_step; eauto. eapply ex_call_first; eauto. Qed.
Print Assumptions C63_observed_first_partial.
(** ... and so do instant swaps. *)
Theorem C63_instant_swaps_observe c e s x m c' ps pid i p p' :
  ex_ft_on_transfer c e s x m = Some (c', ps) -> (match m with MsgHotZap _ _ _ _ => False | _ => True end) ->
  ex_twap c !! pid = Some i -> ex_pool c pid = Some p -> ex_pool c' pid = Some p' -> one_share p < pl_supply p ->
  stands_for p' = stands_for p \/
  exists i', ex_twap c' !! pid = Some i' /\ twap_update i (nano_to_sec (e_now e)) (stands_for p) (cf_interval (ex_cfg c)) = Some i'.
Proof.
  intros H Hm Hi Hp Hp' Hs. eapply tw_first_step; eauto. clear -H Hm.
  unfold ex_ft_on_transfer in H. cbv zeta in H. grd H. grd H. destruct m as [|r l echo su rc skip|r l infos skip]; [| |contradiction].
  - grd H. bnd H c1 H1. injection H as <- <-. apply ex_deposit_inv in H1 as (acc & acc' & _ & _ & _ & _ & ->). now apply first_same.
  - grd H. grd H. bnd H u Hu. bnd H d Hd. destruct d as [c1 outs]. grd H. injection H as <- <-.
    apply ex_direct_inv in Hd as (va & prev & va' & res & _ & H & _). eapply first_mid; [|reflexivity|reflexivity]. eapply tw_mid_execute; [apply tw_mid_refl|eauto].
Qed.
Print Assumptions C63_instant_swaps_observe.

(** Alice's stable pool is recorded from second 1; at second 100 bob trades in it: the record gets an
    observation of the amounts before the trade, 99 seconds long. *)
Definition rec_events : list Event :=
  [ EvCall (env (10 ^ 9) "own" 1) (CRegisterTwap 1);
    EvArrive "b" "bo" 500000 MsgDeposit; EvNotify 12 (env (50 * 10 ^ 9) "b" 0);
    EvCall (env (100 * 10 ^ 9) "bo" 1) (CSwap [ASwap 1 "b" (Some 400000) "c" 0] None false) ].
Definition w_recorded : World := default w_rich (w_run w_rich (firstn 3 rec_events)).
Definition w_observed : World := default w_rich (w_run w_rich rec_events).
Definition rec_pool (w : World) : Pool := default (PSimple (mkSimplePool [] [] 0 ∅ 0)) (ex_pool (w_ex w) 1).
Definition rec_info (w : World) : TwapInfo := default (mkTwapInfo 0 [] []) (ex_twap (w_ex w) !! 1).
Example C63_ex : w_run w_rich rec_events = Some w_observed /\ ex_twap (w_ex w_recorded) !! 1 = Some (rec_info w_recorded) /\
  ex_pool (w_ex w_recorded) 1 = Some (rec_pool w_recorded) /\ one_share (rec_pool w_recorded) < pl_supply (rec_pool w_recorded) /\
  stands_for (rec_pool w_recorded) = [454549; 545459] /\ stands_for (rec_pool w_observed) = [490913; 509177] /\
  tw_cum (rec_info w_recorded) = [454549; 545459] /\ tw_cum (rec_info w_observed) = [100 * 454549; 100 * 545459].
Proof. split; [apply run_default; vm_compute; reflexivity|]. split_and!; vm_compute; reflexivity. Qed.
Lemma w_rich_ok : w_ok w_rich.
Proof.
  eapply w_reach_ok; [apply w_start_ok, w_fresh_start|]. eapply w_run_reach; [|apply w_rich_runs]. eapply w_run_reach; [apply w_reach_refl|apply w_live_runs].
Qed.
Example C63_history_ex : records_sound w_observed.
Proof.
  apply (C63_history w_rich).
  - exact w_rich_ok.
  - intros pid i Hi. assert (E : ex_twap (w_ex w_rich) = ∅) by (vm_compute; reflexivity). rewrite E, lookup_empty in Hi. discriminate Hi.
  - eapply w_run_reach; [apply w_reach_refl|]. apply C63_ex.
Qed.

(** Liquidity added after an instant swap is not observed: at second 100 alice swaps [a] for [b] and adds
    only [b] to the recorded pool.  A share then stands for other amounts, but the record is as before, so
    the next observation counts the new amounts for the 99 seconds before the change. *)
Definition zap_events : list Event :=
  [ EvCall (env (10 ^ 9) "own" 1) (CRegisterTwap 1);
    EvArrive "a" "al" 100000 (MsgHotZap None [ASwap 0 "a" None "b" 0] [mkAddInfo 1 [70000; 0] None (Some 0)] false) ].
Definition w_before_zap : World := default w_rich (w_run w_rich zap_events).
Definition w_after_zap : World := default w_rich (w_step w_before_zap (EvNotify 12 (env (100 * 10 ^ 9) "a" 0))).
Theorem C63_zap_unobserved_refuted :
  w_ok w_before_zap /\ records_sound w_before_zap /\
  w_step w_before_zap (EvNotify 12 (env (100 * 10 ^ 9) "a" 0)) = Some w_after_zap /\
  ex_twap (w_ex w_before_zap) !! 1 = Some (rec_info w_before_zap) /\ tw_last (rec_info w_before_zap) = 1 /\
  one_share (rec_pool w_before_zap) < pl_supply (rec_pool w_before_zap) /\
  stands_for (rec_pool w_after_zap) <> stands_for (rec_pool w_before_zap) /\
  ex_twap (w_ex w_after_zap) !! 1 = Some (rec_info w_before_zap).
Proof.
  assert (R : w_run w_rich zap_events = Some w_before_zap) by (apply run_default; vm_compute; reflexivity).
  assert (Hr : w_reach w_rich w_before_zap) by (eapply w_run_reach; [apply w_reach_refl|exact R]).
  split; [eapply w_reach_ok; [exact w_rich_ok|exact Hr]|]. split.
  { eapply C63_history; [exact w_rich_ok| |exact Hr].
    intros pid i Hi. assert (E : ex_twap (w_ex w_rich) = ∅) by (vm_compute; reflexivity). rewrite E, lookup_empty in Hi. discriminate Hi. }
  split; [apply run_default; vm_compute; reflexivity|].
  split; [vm_compute; reflexivity|]. split; [vm_compute; reflexivity|]. split; [vm_compute; reflexivity|].
  split; [vm_compute; discriminate|vm_compute; reflexivity].
Qed.
Print Assumptions C63_zap_unobserved_refuted.
