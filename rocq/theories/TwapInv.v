(** * Cumulative records over histories of the exchange: proofs *)
From Verif Require Import Base BaseLemmas SimplePool SimplePoolProofs SpecSimple SimplePoolInv StableMath StablePool
  SpecStable StablePoolProofs StablePoolInv Rates Echo Twap SpecTwap PropTwap.
From Verif Require Import Account Pool Exchange SpecExchange AccountProofs PoolFacts
  ExchangeProofs ExchangeInv ExchangeEffect ExchangeFrames SpecWorld WorldProofs SpecSwap SpecHistory HistoryProofs.

(** ** Amounts one share stands for *)
Lemma sp_redeem_all_small S s rs ms als ls :
  sp_redeem_all S s rs ms = Some (als, ls) -> Forall (fun a => a < W128) als /\ length als = length ms.
Proof.
  revert ms als ls. induction rs as [|r rs IH]; intros [|m ms] als ls H; try discriminate H; cbn [sp_redeem_all] in H.
  - injection H as <- <-. split; [constructor|done].
  - apply bind_Some in H as ([a l] & Ha & H). apply bind_Some in H as ([als' ls'] & Hr & H). injection H as <- <-.
    apply IH in Hr as [A B]. split; [|cbn [length]; lia]. constructor; [|done].
    unfold sp_redeem in Ha. bnd Ha x Hx. bnd Ha q Hq. bnd Ha am Ham. grd Ha. bnd Ha lf Hl. injection Ha as <- <-.
    apply fit_Some in Ham as [-> ?]. done.
Qed.
Lemma from_c_small k d c a : c < W128 -> from_c k d c = Some a -> a < W128.
Proof.
  unfold from_c. intros Hc H. destruct (d <=? target_decimal k); bnd H f Hf.
  - apply cdiv_Some in H as [-> Hf0]. eapply N.le_lt_trans; [apply N.div_le_upper_bound with (q := c)|exact Hc]; [lia|]. clear -Hf0. nia.
  - apply cmul_Some in H as [-> H]. exact H.
Qed.
Lemma st_redeem_all_small k S s ds cs ms als ls :
  st_redeem_all k S s ds cs ms = Some (als, ls) -> Forall (fun a => a < W128) als /\ length als = length ms.
Proof.
  revert cs ms als ls. induction ds as [|d ds IH]; intros [|c cs] [|m ms] als ls H; try discriminate H; cbn [st_redeem_all] in H.
  - injection H as <- <-. split; [constructor|done].
  - apply bind_Some in H as ([a l] & Ha & H). apply bind_Some in H as ([als' ls'] & Hr & H). injection H as <- <-.
    apply IH in Hr as [A B]. split; [|cbn [length]; lia]. constructor; [|done].
    unfold st_redeem in Ha. bnd Ha x Hx. bnd Ha q Hq. bnd Ha r Hr'. bnd Ha lf Hl. grd Ha. bnd Ha am Ham. grd Ha. injection Ha as <- <-.
    apply fit_Some in Hr' as [-> ?]. eapply from_c_small; eauto.
Qed.
Lemma pl_remove_small p a s ms v p' l :
  pl_remove_liquidity p a s ms v = Some (p', l) -> Forall (fun x => x < W128) l /\ length l = length ms.
Proof.
  unfold pl_remove_liquidity. destruct p as [q|q]; intros H; bnd H r Hr; destruct r as [q' l']; injection H as <- <-.
  - unfold sp_remove_liquidity in Hr. grd Hr. bnd Hr m Hm. bnd Hr y Hy. destruct y as [am rs]. bnd Hr sy Hsy. injection Hr as <- <-.
    eapply sp_redeem_all_small; eauto.
  - unfold st_remove_by_shares in Hr. grd Hr. bnd Hr m Hm. bnd Hr y Hy. destruct y as [am rs]. bnd Hr sy Hsy. injection Hr as <- <-.
    eapply st_redeem_all_small; eauto.
Qed.
Lemma ex_unit_amounts_small c pid am :
  ex_unit_amounts c pid = Some (Some am) ->
  exists p, ex_pool c pid = Some p /\ Forall (fun x => x < W128) am /\ length am = length (pl_tokens p).
Proof.
  unfold ex_unit_amounts. intros H. bnd H p Hp. destruct (10 ^ pl_share_decimal p <? pl_supply p); [|discriminate H].
  bnd H q Hq. destruct q as [p' l]. injection H as <-. apply pl_remove_small in Hq as [A B]. rewrite repeat_length in B. eauto.
Qed.
Lemma ex_unit_amounts_pool c c' pid : ex_pool c' pid = ex_pool c pid -> ex_unit_amounts c' pid = ex_unit_amounts c pid.
Proof. unfold ex_unit_amounts. now intros ->. Qed.

(** ** Several updates at the same time *)
Inductive updates (now : N) (i : TwapInfo) : TwapInfo -> Prop :=
| updates_refl : updates now i i
| updates_step i1 am iv i2 : updates now i i1 -> Forall (fun x => x < W128) am ->
    twap_update i1 (nano_to_sec now) am iv = Some i2 -> updates now i i2.
Lemma twap_update_again i now am iv i' am' iv' i2 :
  twap_update i now am iv = Some i' -> twap_update i' now am' iv' = Some i2 -> i2 = i'.
Proof.
  intros H H'. apply twap_update_cases in H as [[-> ->]|(cum & rl & _ & _ & _ & _ & Hl & _)].
  - apply twap_update_cases in H' as [[_ ->]|(? & ? & _ & Hlt & _)]; [done|lia].
  - apply twap_update_cases in H' as [[_ ->]|(? & ? & _ & Hlt & _)]; [done|lia].
Qed.

(** The record of [pid] changed from [c0] to [c] only by an observation of what a share stood for in [c0]. *)
Definition tw_seen (now : N) (c0 c : Exchange) (pid : N) : Prop :=
  (ex_twap c0 !! pid = None /\ ex_twap c !! pid = None) \/
  (exists i am i', ex_twap c0 !! pid = Some i /\ ex_unit_amounts c0 pid = Some (Some am) /\
     twap_update i (nano_to_sec now) am (cf_interval (ex_cfg c0)) = Some i' /\ ex_twap c !! pid = Some i') \/
  (ex_unit_amounts c0 pid = Some None /\ exists i i', ex_twap c0 !! pid = Some i /\ ex_twap c !! pid = Some i' /\ updates now i i').
Definition tw_mid (now : N) (c0 c : Exchange) : Prop :=
  ex_cfg c = ex_cfg c0 /\
  forall pid, (ex_twap c !! pid = ex_twap c0 !! pid /\ ex_pool c pid = ex_pool c0 pid) \/ tw_seen now c0 c pid.
Definition tw_done (now : N) (c0 c : Exchange) : Prop :=
  forall pid, ex_twap c !! pid = ex_twap c0 !! pid \/ tw_seen now c0 c pid.
Lemma tw_mid_refl now c : tw_mid now c c. Proof. split; auto. Qed.
Lemma tw_mid_done now c0 c c' : tw_mid now c0 c -> ex_twap c' = ex_twap c -> tw_done now c0 c'.
Proof.
  intros [_ H] E pid. destruct (H pid) as [[A _]|A]; [left; now rewrite E|right]. unfold tw_seen in *. now rewrite E.
Qed.
Lemma tw_same now c c' : ex_twap c' = ex_twap c -> tw_done now c c'.
Proof. apply tw_mid_done, tw_mid_refl. Qed.
Lemma tw_seen_twap now c0 c c' pid : ex_twap c' !! pid = ex_twap c !! pid -> tw_seen now c0 c pid -> tw_seen now c0 c' pid.
Proof. unfold tw_seen. now intros ->. Qed.

Lemma tw_mid_touch e c0 c pid c1 :
  tw_mid (e_now e) c0 c -> ex_update_twap c e pid = Some c1 -> is_Some (ex_pool c pid) ->
  ex_cfg c1 = ex_cfg c0 /\ tw_seen (e_now e) c0 c1 pid /\
  forall q, q <> pid -> (ex_twap c1 !! q = ex_twap c0 !! q /\ ex_pool c1 q = ex_pool c0 q) \/ tw_seen (e_now e) c0 c1 q.
Proof.
  intros [Hcfg H] Hu _. unfold ex_update_twap in Hu. rewrite Hcfg in Hu.
  destruct (ex_twap c !! pid) as [i|] eqn:Ei.
  2:{ injection Hu as <-. split_and!; [done| |intros q _; apply H].
      destruct (H pid) as [[A _]|A]; [|done]. left. rewrite <- A. auto. }
  bnd Hu u Hu'. destruct u as [am|].
  - bnd Hu i' Hi. injection Hu as <-. ex_cbn. split_and!; [done| |].
    + unfold tw_seen. ex_cbn. rewrite lookup_insert. destruct (H pid) as [[A B]|[[A B]|[(j & am0 & j' & A & B & C & D)|(A & j & j' & B & C & D)]]].
      * right; left. exists i, am, i'. rewrite <- A. split_and!; auto. now rewrite <- (ex_unit_amounts_pool _ _ _ B).
      * rewrite B in Ei. discriminate Ei.
      * right; left. exists j, am0, j'. rewrite Ei in D. injection D as ->. rewrite (twap_update_again _ _ _ _ _ _ _ _ C Hi). auto.
      * right; right. split; [done|]. exists j, i'. rewrite Ei in C. injection C as ->. split_and!; auto.
        apply ex_unit_amounts_small in Hu' as (p & _ & Hs & _). eapply updates_step; eauto.
    + intros q Hq. rewrite lookup_insert_ne by done. destruct (H q) as [A|A]; [auto|right].
      eapply tw_seen_twap; [|exact A]. ex_cbn. now rewrite lookup_insert_ne by done.
  - injection Hu as <-. split_and!; [done| |intros q _; apply H].
    destruct (H pid) as [[A B]|A]; [|done]. right; right. split; [now rewrite <- (ex_unit_amounts_pool _ _ _ B)|].
    exists i, i. rewrite <- A. split_and!; auto. apply updates_refl.
Qed.
Lemma tw_mid_put e c0 c pid p' :
  ex_cfg c = ex_cfg c0 -> tw_seen (e_now e) c0 c pid ->
  (forall q, q <> pid -> (ex_twap c !! q = ex_twap c0 !! q /\ ex_pool c q = ex_pool c0 q) \/ tw_seen (e_now e) c0 c q) ->
  is_Some (ex_pool c pid) -> tw_mid (e_now e) c0 (ex_put_pool c pid p').
Proof.
  intros Hc Hs H Hp. split; [done|]. intros q. destruct (N.eq_dec q pid) as [->|Hne].
  - right. eapply tw_seen_twap; [|exact Hs]. reflexivity.
  - destruct (H q Hne) as [[A B]|A]; [left|right; eapply tw_seen_twap; [|exact A]; reflexivity].
    split; [exact A|]. rewrite ex_pool_put by done. destruct (N.eqb_spec pid q); [congruence|done].
Qed.
Lemma tw_mid_swap e c0 c pid ti a to mn r c' out :
  tw_mid (e_now e) c0 c -> ex_pool_swap c e pid ti a to mn r = Some (c', out) -> tw_mid (e_now e) c0 c'.
Proof.
  unfold ex_pool_swap. intros Hm H. bnd H c1 Hc1. bnd H p Hp. bnd H q Hq. destruct q as [p' o].
  bnd H ii Hii. bnd H io Hio. bnd H v Hv. injection H as <- <-.
  assert (Hs : is_Some (ex_pool c pid)). { apply ex_update_twap_frame in Hc1 as (tw & ->). change (ex_pool c pid = Some p) in Hp. eauto. }
  destruct (tw_mid_touch _ _ _ _ _ Hm Hc1 Hs) as (A & B & C).
  apply (tw_mid_put e c0 (ex_put_volumes c1 pid v) pid p'); eauto.
Qed.
Lemma tw_mid_swap_by_output e c0 c pid ti a to mx r c' inp :
  tw_mid (e_now e) c0 c -> ex_pool_swap_by_output c e pid ti a to mx r = Some (c', inp) -> tw_mid (e_now e) c0 c'.
Proof.
  unfold ex_pool_swap_by_output. intros Hm H. bnd H c1 Hc1. bnd H p Hp. bnd H q Hq. destruct q as [p' o].
  bnd H ii Hii. bnd H io Hio. bnd H v Hv. injection H as <- <-.
  assert (Hs : is_Some (ex_pool c pid)). { apply ex_update_twap_frame in Hc1 as (tw & ->). change (ex_pool c pid = Some p) in Hp. eauto. }
  destruct (tw_mid_touch _ _ _ _ _ Hm Hc1 Hs) as (A & B & C).
  apply (tw_mid_put e c0 (ex_put_volumes c1 pid v) pid p'); eauto.
Qed.
Lemma tw_mid_action e c0 c acc r a prev c' acc' x :
  tw_mid (e_now e) c0 c -> ex_exec_action c e acc r a prev = Some (c', acc', x) -> tw_mid (e_now e) c0 c'.
Proof.
  unfold ex_exec_action. intros Hm H. destruct a.
  - bnd H amt Hamt. bnd H acc1 H1. bnd H q Hq. destruct q as [c1 o]. bnd H acc2 H2. injection H as <- <- <-. eapply tw_mid_swap; eauto.
  - bnd H amt Hamt. bnd H q Hq. destruct q as [c1 o]. injection H as <- <- <-. eapply tw_mid_swap_by_output; eauto.
Qed.
Lemma tw_mid_execute c0 c e acc r l prev skip c' acc' res :
  tw_mid (e_now e) c0 c -> ex_execute c e acc r l prev skip = Some (c', acc', res) -> tw_mid (e_now e) c0 c'.
Proof.
  unfold ex_execute. intros Hm H. grd H. grd H. bnd H a0 Ha0. bnd H q Hq. destruct q as [[c1 acc1] x]. bnd H u Hu. injection H as <- <- <-.
  destruct (is_swap a0).
  - clear -Hq Hm. revert c acc prev Hq Hm. induction l as [|a l IH]; intros c acc prev H Hm; cbn [ex_swap_loop] in H.
    + injection H as <- <- <-. done.
    + bnd H q Hq. destruct q as [[c2 acc2] y]. eapply tw_mid_action in Hq; eauto.
  - clear -Hq Hm. revert Hq. generalize (@None AccountId) as pi. intros pi Hq.
    revert c acc prev pi Hq Hm. induction l as [|a l IH]; intros c acc prev pi H Hm; cbn [ex_output_loop] in H.
    + bnd H q Hq. injection H as <- <- <-. done.
    + bnd H acc0 Hacc0. bnd H q Hq. destruct q as [[c2 acc2] y]. eapply tw_mid_action in Hq; eauto.
Qed.
Lemma ex_zap_loop_twap e s l : forall c m c' m', ex_zap_loop c e s m l = Some (c', m') -> ex_twap c' = ex_twap c.
Proof.
  induction l as [|i l IH]; intros c m c' m' H; cbn [ex_zap_loop] in H; [now injection H as <- <-|].
  bnd H q Hq. destruct q as [c1 m1]. apply ex_zap_one_inv in Hq as (p & p' & am & sh & _ & _ & _ & _ & ->).
  apply IH in H. now rewrite H.
Qed.
Lemma ex_ft_on_transfer_twap c e s x m c' ps : ex_ft_on_transfer c e s x m = Some (c', ps) -> tw_done (e_now e) c c'.
Proof.
  unfold ex_ft_on_transfer. intros H. cbv zeta in H. grd H. grd H. destruct m as [|r l echo su rc skip|r l infos skip].
  - grd H. bnd H c1 H1. injection H as <- <-. apply ex_deposit_inv in H1 as (acc & acc' & _ & _ & _ & _ & ->). now apply tw_same.
  - grd H. grd H. bnd H u Hu. bnd H d Hd. destruct d as [c1 outs]. grd H. injection H as <- <-.
    apply ex_direct_inv in Hd as (va & prev & va' & res & _ & H & _). eapply tw_mid_done; [|reflexivity]. eapply tw_mid_execute; [apply tw_mid_refl|eauto].
  - bnd H c1 H1. injection H as <- <-. apply ex_hot_zap_inv in H1 as (acc & ts & c2 & outs & m & c3 & m' & acc' & _ & _ & _ & _ & _ & _ & Hd & _ & Hz & _ & _ & _ & ->).
    apply ex_direct_inv in Hd as (va & prev & va' & res & _ & H & _). eapply tw_mid_done; [eapply tw_mid_execute; [apply tw_mid_refl|eauto]|].
    ex_cbn. eapply ex_zap_loop_twap; eauto.
Qed.

Lemma tw_touch_done e c pid c1 c' : ex_update_twap c e pid = Some c1 -> is_Some (ex_pool c pid) -> ex_twap c' = ex_twap c1 -> tw_done (e_now e) c c'.
Proof.
  intros H Hp E. destruct (tw_mid_touch _ _ _ _ _ (tw_mid_refl _ _) H Hp) as (A & B & C).
  intros q. destruct (N.eq_dec q pid) as [->|Hne].
  - right. eapply tw_seen_twap; [|exact B]. now rewrite E.
  - destruct (C q Hne) as [[D _]|D]; [left; now rewrite E|right]. eapply tw_seen_twap; [|exact D]. now rewrite E.
Qed.
(** Calls other than registering and unregistering a record. *)
Definition sets_twap (x : Call) : bool := match x with CRegisterTwap _ | CUnregisterTwap _ => true | _ => false end.
Lemma some_pool c e pid c1 p : ex_update_twap c e pid = Some c1 -> ex_pool c1 pid = Some p -> is_Some (ex_pool c pid).
Proof. intros H Hp. apply ex_update_twap_frame in H as (tw & ->). change (ex_pool c pid = Some p) in Hp. eauto. Qed.
Lemma ex_call_twap c e x c' ps : sets_twap x = false -> ex_call c e x = Some (c', ps) -> tw_done (e_now e) c c'.
Proof.
  intros Hx H. destruct (is_settings x) eqn:Es.
  - destruct x; try discriminate Es; try discriminate Hx; clear Es Hx; cbn [ex_call] in H;
      try (apply quiet_inv in H as [H ->]).
    all: try (unfold ex_modify_interval, ex_set_owner,
       ex_extend_guardians, ex_remove_guardians, ex_extend_postfix, ex_remove_postfix, ex_modify_farm, ex_modify_burrow, ex_modify_wnear,
       ex_change_state, ex_extend_whitelist, ex_remove_whitelist, ex_extend_frozen, ex_remove_frozen, ex_put_referral, ex_remove_referral,
       ex_modify_admin_fee, ex_rate_admin, ex_add_limit, ex_update_limit, ex_remove_limit, ex_extend_echo, ex_remove_echo in H;
       inv; subst; apply tw_same; reflexivity).
    + unfold ex_sync_twap in H. grd H. bnd H i Hi. bnd H u Hu. bnd H am Ham. subst u. bnd H i' Hi'. injection H as <-.
      eapply (tw_touch_done e c pid); [|apply ex_unit_amounts_small in Hu as (p & Hp & _); eauto|reflexivity].
      unfold ex_update_twap. rewrite Hi, Hu. cbn [mbind option_bind]. rewrite Hi'. reflexivity.
    + apply ex_retrieve_inv in H as (_ & _ & -> & _). now apply tw_same.
    + unfold ex_change_state in H. grd H. destruct (Bool.eqb _ _); inv; subst; apply tw_same; reflexivity.
  - destruct x; try discriminate Es; clear Es Hx; cbn [ex_call] in H;
      try (apply quiet_inv in H as [H ->]); try (apply quiet2_inv in H as (res & H & ->)); try (apply keep2_inv in H as (res & H)).
    7:{ unfold ex_add_liquidity in H. grd H. grd H. bnd H c1 Hc1. bnd H p Hp. grd H. bnd H q Hq. destruct q as [[p' tk] sh]. grd H. bnd H acc Ha. bnd H acc' Ha'.
        bnd H c2 Hc2. bnd H qs Hqs. injection H as <- <- <-. unfold ex_save in Hc2. grd Hc2. injection Hc2 as <-.
        eapply tw_touch_done; [exact Hc1|eapply some_pool; eauto|reflexivity]. }
    7:{ unfold ex_add_stable_liquidity in H. grd H. grd H. bnd H c1 Hc1. bnd H p Hp. grd H. bnd H q Hq. destruct q as [p' sh]. grd H. bnd H acc Ha. bnd H acc' Ha'.
        bnd H c2 Hc2. bnd H qs Hqs. injection H as <- <- <-. unfold ex_save in Hc2. grd Hc2. injection Hc2 as <-.
        eapply tw_touch_done; [exact Hc1|eapply some_pool; eauto|reflexivity]. }
    7:{ unfold ex_remove_liquidity in H. grd H. grd H. bnd H c1 Hc1. bnd H p Hp. bnd H acc Ha. grd H. grd H. bnd H q Hq. destruct q as [p' am]. bnd H acc' Ha'.
        bnd H c2 Hc2. injection H as <- <-. unfold ex_save in Hc2. grd Hc2. injection Hc2 as <-.
        eapply tw_touch_done; [exact Hc1|eapply some_pool; eauto|reflexivity]. }
    7:{ unfold ex_remove_by_tokens in H. grd H. grd H. bnd H c1 Hc1. bnd H p Hp. bnd H acc Ha. bnd H fr Hf. grd H. bnd H q Hq. destruct q as [p' am]. grd H. bnd H acc' Ha'.
        bnd H c2 Hc2. injection H as <- <-. unfold ex_save in Hc2. grd Hc2. injection Hc2 as <-.
        eapply tw_touch_done; [exact Hc1|eapply some_pool; eauto|reflexivity]. }
    all: call_inv H; try (apply tw_same; reflexivity).
    all: eapply tw_mid_done; [eapply tw_mid_execute; [apply tw_mid_refl|eassumption]|reflexivity].
Qed.
