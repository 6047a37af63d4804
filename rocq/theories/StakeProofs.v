(** * Pool shares staked in ref-farming: proofs *)
From stdpp Require Import pretty.
From Verif Require Import Base BaseLemmas SimplePool SimplePoolProofs SpecSimple SimplePoolInv StableMath StablePool
  SpecStable StablePoolProofs StablePoolInv Rates Echo Twap Account Pool Exchange SpecExchange AccountProofs PoolFacts
  ExchangeProofs ExchangeInv ExchangeEffect ExchangeFrames SpecWorld WorldProofs SpecSwap SwapProofs SpecHistory HistoryProofs SpecShadow ShadowProofs
  SpecAccess AccessProofs SpecStake PropShares PropOwn PropIds.
From Verif Require Farming SpecFarming FarmingWorld PropFarming.

(** ** Which promises are notices *)
Definition mute (p : Promise) : Prop := notice (Leaving p) = None.
Lemma ex_send_mute c r t x s : mute (ex_send c r t x s).
Proof. unfold ex_send. destruct (bool_decide _ && _); [done|]. destruct s; try done. Qed.
Lemma check_storage_mute e ps : check_storage e = Some ps -> Forall mute ps.
Proof. unfold check_storage. intros H. bnd H r Hr. injection H as <-. destruct (0 <? r); [apply Forall_cons; split; [done|]|]; apply Forall_nil; exact I. Qed.
Lemma refund_mute a x : Forall mute (refund_to a x).
Proof. unfold refund_to. destruct (0 <? x); [apply Forall_cons; split; [done|]|]; apply Forall_nil; exact I. Qed.
Ltac msing := repeat (apply Forall_cons; split; [first [apply ex_send_mute|reflexivity]|]); apply Forall_nil; exact I.
Definition is_mft_call (x : Call) : bool := match x with CMftTransferCall _ _ _ => true | _ => false end.
Lemma ex_call_mute c e x c' ps : ex_wf (e_now e) c -> is_mft_call x = false -> ex_call c e x = Some (c', ps) -> Forall mute ps.
Proof.
  intros Hwf Ht H. destruct (is_retrieve x) eqn:Er.
  { destruct x; try discriminate Er. cbn [ex_call] in H. apply ex_retrieve_inv in H as (_ & _ & _ & ->). msing. }
  destruct (is_settings x) eqn:Es; [apply settings_promises in H as ->; auto; msing|].
  destruct (touches_shadow x) eqn:Eh.
  { destruct x; try discriminate Eh; cbn [ex_call] in H.
    - apply ex_shadow_action_inv in H as (acc & p & mx & y & _ & _ & _ & _ & _ & _ & _ & [(_ & acc' & qs & _ & _ & Hq & _ & ->)|(_ & _ & ->)]).
      + apply Forall_app. split; [|msing]. eapply check_storage_mute; eauto.
      + msing.
    - apply liquidation_shadows in H as (pid & _ & _ & _ & _ & _ & _ & _ & (back & _ & ->) & _); [|done]. destruct (0 <? back); msing. }
  destruct x; try discriminate Es; try discriminate Ht; try discriminate Eh; clear Es Er Ht Eh; cbn [ex_call] in H;
    try (apply quiet_inv in H as [H ->]; apply Forall_nil; exact I); try (apply quiet2_inv in H as (res & H & ->); apply Forall_nil; exact I); try (apply keep2_inv in H as (res & H)).
  - apply ex_add_simple_pool_inv in H as (p & _ & _ & _ & H). apply ex_add_pool_inv in H as (p' & v & _ & _ & _ & H). eapply check_storage_mute; eauto.
  - apply ex_add_stable_pool_inv in H as (p & _ & _ & _ & _ & H). apply ex_add_pool_inv in H as (p' & v & _ & _ & _ & H). eapply check_storage_mute; eauto.
  - apply ex_add_liquidity_inv in H as (tw & p & p' & taken & acc & acc' & _ & _ & _ & _ & _ & _ & _ & _ & _ & H & _). eapply check_storage_mute; eauto.
  - apply ex_add_stable_liquidity_inv in H as (tw & p & p' & acc & acc' & _ & _ & _ & _ & _ & _ & _ & _ & _ & H & _). eapply check_storage_mute; eauto.
  - apply ex_withdraw_inv in H as (acc & x & acc1 & acc2 & _ & _ & _ & _ & _ & _ & _ & _ & _ & _ & ->). msing.
  - apply ex_claim_inv in H as (x & _ & _ & _ & _ & _ & _ & ->). msing.
  - apply ex_mft_register_inv in H as (pid & p & p' & _ & _ & _ & _ & H & _). eapply check_storage_mute; eauto.
  - apply ex_mft_unregister_inv in H as (pid & p & p' & _ & _ & _ & _ & _ & -> & _). apply refund_mute.
  - apply ex_donate_share_inv in H as (p & x & p1 & p2 & _ & _ & _ & _ & _ & _ & _ & [(_ & [->| ->])|(acc & -> & _)]); msing.
  - apply ex_storage_deposit_inv in H as (_ & _ & [(_ & _ & _ & ->)|[(_ & _ & _ & _ & ->)|(_ & _ & ->)]]); [apply refund_mute|apply refund_mute|msing].
  - apply ex_storage_withdraw_inv in H as (acc & y & _ & _ & _ & _ & _ & _ & _ & _ & _ & ->). msing.
  - apply ex_storage_unregister_inv in H as (_ & _ & [(_ & _ & ->)|(acc & _ & _ & _ & _ & _ & ->)]); msing.
  - apply ex_withdraw_owner_inv in H as (acc & acc' & _ & _ & _ & _ & _ & _ & ->). msing.
Qed.
Lemma ex_ft_on_transfer_mute c e s x m c' ps : ex_ft_on_transfer c e s x m = Some (c', ps) -> Forall mute ps.
Proof.
  intros H. unfold ex_ft_on_transfer in H. cbv zeta in H. grd H. grd H. destruct m as [|r l echo su rc skip|r l infos skip].
  - grd H. bnd H c1 H1. injection H as <- <-. constructor.
  - grd H. grd H. bnd H u Hu. bnd H d Hd. destruct d as [c1 outs]. grd H. injection H as <- <-.
    apply Forall_fmap, Forall_forall. intros [t y] _. unfold compose. cbn [fst snd]. destruct echo; [done|]. apply ex_send_mute.
  - bnd H c1 H1. injection H as <- <-. constructor.
Qed.

(** ** Notices in the queue *)
Lemma notices_lookup w i : notices w !! i = w_flights w !! i ≫= notice.
Proof. unfold notices. apply lookup_omap. Qed.
Lemma notices_quiet (m : gmap N Flight) i f : notice f = None -> m !! i ≫= notice = None -> omap notice (<[i := f]> m) = omap notice m.
Proof.
  intros Hf Hi. apply map_eq. intros j. rewrite !lookup_omap. destruct (decide (i = j)) as [<-|]; [|now rewrite lookup_insert_ne].
  rewrite lookup_insert, Hi. exact Hf.
Qed.
Lemma notices_delete (m : gmap N Flight) i : omap notice (delete i m) = delete i (omap notice m).
Proof.
  apply map_eq. intros j. rewrite lookup_omap. destruct (decide (i = j)) as [<-|]; [now rewrite !lookup_delete|]. now rewrite !lookup_delete_ne, lookup_omap.
Qed.
Lemma notices_delete_quiet (m : gmap N Flight) i : m !! i ≫= notice = None -> omap notice (delete i m) = omap notice m.
Proof. intros Hi. rewrite notices_delete. apply delete_notin. now rewrite lookup_omap. Qed.
Lemma enqueue_mute ps : forall m n, ids_below m n -> Forall mute ps -> omap notice (enqueue m n ps).1 = omap notice m.
Proof.
  induction ps as [|p ps IH]; intros m n Hb H; cbn [enqueue]; [done|]. apply Forall_cons in H as [Hp H].
  rewrite IH; [|now apply ids_below_fresh|done]. apply notices_quiet; [exact Hp|]. now rewrite (ids_below_None _ _ Hb).
Qed.
Lemma w_step_notices w ev w' : w_ok w -> w_step w ev = Some w' ->
  match ev with
  | EvCall e (CMftTransferCall id r am) =>
      exists x, ex_mft_transfer (w_ex w) id (e_caller e) r am = Some (w_ex w', x) /\ notices w !! w_next w = None /\
        notices w' = <[w_next w := mkNotice id (e_caller e) r x]> (notices w)
  | EvMftResolve i e ret =>
      exists n, notices w !! i = Some n /\ notices w' = delete i (notices w) /\
        w_ex w' = default (w_ex w) (ex_mft_resolve (w_ex w) (nt_id n) (nt_from n) (nt_to n) (nt_amount n) ret)
  | _ => notices w' = notices w
  end.
Proof.
  intros [Hwf Hids] H. unfold w_step in H. cbv zeta in H. unfold notices.
  destruct ev.
  - bnd H u Hu. apply next_time_inv in Hu as [Hn HW]. bnd H u' Hu'. bnd H q Hq'. destruct q as [c' ps]. injection H as <-.
    destruct (queue_flights w c' (w_hold w) (w_flights w) ps (e_now e)) as (-> & Hnx & ->).
    assert (Hwf' : ex_wf (e_now e) (w_ex w)) by (eapply ex_wf_mono; eauto).
    destruct (is_mft_call x) eqn:Em.
    + destruct x; try discriminate Em. cbn [ex_call] in Hq'. apply ex_mft_transfer_call_inv in Hq' as (x & _ & _ & H & ->).
      exists x. split; [exact H|]. assert (En : w_flights w !! w_next w = None) by (apply (ids_below_None _ _ Hids)).
      split; [rewrite lookup_omap; now rewrite En|]. cbn [enqueue fst].
      apply map_eq. intros j. rewrite lookup_omap. destruct (decide (w_next w = j)) as [<-|]; [now rewrite !lookup_insert|].
      now rewrite !lookup_insert_ne, lookup_omap.
    + assert (K : omap notice (enqueue (w_flights w) (w_next w) ps).1 = omap notice (w_flights w)) by (apply enqueue_mute; [done|]; eapply ex_call_mute; eauto).
      destruct x; try discriminate Em; exact K.
  - bnd H u Hu. injection H as <-. cbn [w_flights]. apply notices_quiet; [done|]. now rewrite (ids_below_None _ _ Hids).
  - bnd H u Hu. bnd H f Hf. destruct f as [t' s x msg| |]; try discriminate H. bnd H u' Hu'.
    assert (Hd : omap notice (delete id (w_flights w)) = omap notice (w_flights w)) by (apply notices_delete_quiet; now rewrite Hf).
    destruct (ex_ft_on_transfer _ _ _ _ _) as [[c' ps]|] eqn:E.
    + injection H as <-. destruct (queue_flights w c' (w_hold w) (delete id (w_flights w)) ps (e_now e)) as (-> & _ & _).
      rewrite enqueue_mute; [done|now apply ids_below_delete|]. eapply ex_ft_on_transfer_mute; eauto.
    + injection H as <-. exact Hd.
  - bnd H u Hu. now injection H as <-.
  - bnd H f Hf. destruct f as [|p|]; try discriminate H.
    destruct p as [t' r x|t' r x|t' r x|t' r x| | | |]; try discriminate H; bnd H u Hu; injection H as <-; cbn [w_flights];
      first [apply notices_quiet; [done|]; now rewrite Hf|apply notices_delete_quiet; now rewrite Hf].
  - bnd H u Hu. bnd H f Hf. destruct f as [| |p ok]; try discriminate H.
    destruct p; try discriminate H; injection H as <-; cbn [w_flights]; (apply notices_delete_quiet; now rewrite Hf).
  - bnd H u Hu. bnd H f Hf. destruct f as [|p|]; try discriminate H. destruct p as [| | | | |tid s r x| |]; try discriminate H. injection H as <-.
    exists (mkNotice tid s r x). rewrite lookup_omap, Hf. split; [done|]. split; [apply notices_delete|done].
  - bnd H u Hu. bnd H f Hf. destruct f as [|p|]; try discriminate H. destruct p; try discriminate H. injection H as <-. cbn [w_flights].
    apply notices_delete_quiet. now rewrite Hf.
  - bnd H u Hu. bnd H c' Hc'. now injection H as <-.
  - bnd H u Hu. bnd H q Hq'. destruct q as [c' ps]. injection H as <-.
    destruct (queue_flights w c' (w_hold w) (w_flights w) ps (e_now e)) as (-> & _ & _).
    apply enqueue_mute; [done|]. eapply ex_ft_on_transfer_mute; eauto.
  - now injection H as <-.
Qed.

(** ** Only its own calls stake the shares of an account elsewhere *)
Lemma w_step_stakes w ev w' a pid : w_ok w -> w_step w ev = Some w' -> match ev with EvCall e _ => e_caller e <> a | _ => True end ->
  farm_at (w_ex w') pid a <= farm_at (w_ex w) pid a /\ burrow_at (w_ex w') pid a <= burrow_at (w_ex w) pid a.
Proof.
  intros Hok H Hev. destruct (shadow_event ev) eqn:Es.
  2: { destruct (w_step_quiet _ _ _ Hok H Es) as [F _]. now apply shadow_frame_le. }
  destruct (w_step_happens _ _ _ H) as [Hn Hh]. assert (Hwf : ex_wf (w_now w') (w_ex w)) by (eapply ex_wf_later; [exact Hn|apply Hok]).
  destruct ev; try discriminate Es; cbn [shadow_event] in Es.
  - unfold w_step in H. cbv zeta in H. bnd H u Hu. apply next_time_inv in Hu as [Hn' HW]. bnd H u' Hu'. bnd H q Hq'. destruct q as [c' ps]. injection H as <-.
    destruct (queue_flights w c' (w_hold w) (w_flights w) ps (e_now e)) as (_ & _ & ->).
    assert (Hwf' : ex_wf (e_now e) (w_ex w)) by (destruct Hok; eapply ex_wf_mono; eauto).
    destruct x; try discriminate Es; cbn [ex_call] in Hq'.
    + apply ex_shadow_action_inv in Hq' as (acc & p & mx & y & _ & _ & _ & _ & _ & _ & _ & [(_ & acc' & qs & _ & _ & _ & -> & _)|(_ & -> & _)]); [|lia].
      unfold farm_at, burrow_at. rewrite shadow_put. rewrite (proj2 (String.eqb_neq _ _) Hev). lia.
    + apply liquidation_shadows in Hq' as (q & _ & _ & _ & _ & _ & Hb & Hf & (back & Hfb & _) & _); [|done].
      split; [|specialize (Hb pid a); lia]. destruct (decide (pid = q)) as [->|]; [|rewrite Hf by auto; lia].
      destruct (decide (a = victim)) as [->|]; [lia|]. rewrite Hf by auto. lia.
  - unfold w_step in H. cbv zeta in H. bnd H u Hu. bnd H f Hf. destruct f as [|p|]; try discriminate H. destruct p as [| | | | | |act s q x fee|]; try discriminate H. injection H as <-. cbn [w_ex].
    destruct (ex_callback_shadow _ _ _ _ _ _ _ _) as [[c' ps]|] eqn:E; cbn [fmap option_fmap option_map default from_option Datatypes.id fst]; [|lia].
    apply ex_callback_shadow_inv in E as [(_ & _ & -> & ->)|[(_ & Hc & -> & acc & acc1 & Ha & Hu' & _ & ->)|(_ & acc & acc1 & Ha & Hu' & _ & -> & ->)]]; [lia| |].
    + eapply update_shadow_back; eauto. unfold is_back. now rewrite Hc.
    + rewrite <- (ac_set_near_same acc1).
      destruct act; [exact (update_shadow_back (w_ex w) s acc q FromFarming x acc1 _ Ha eq_refl Hu' pid a)| |exact (update_shadow_back (w_ex w) s acc q FromBurrowland x acc1 _ Ha eq_refl Hu' pid a)|];
        (injection Hu' as <-; unfold farm_at, burrow_at; rewrite shadow_put; destruct (String.eqb_spec s a) as [E|]; [subst a|lia];
         unfold shadow_at; rewrite Ha; cbn [ac_set_near ac_shadow]; lia).
Qed.

(** ** Only its own calls and resolutions take shares of an account that has staked none elsewhere *)
Lemma w_step_spares w ev w' pid a : w_ok w -> w_step w ev = Some w' ->
  match ev with EvCall e _ => e_caller e <> a | EvMftResolve _ _ _ => False | _ => True end ->
  a <> ex_self (w_ex w) -> burrow_at (w_ex w) pid a = 0 -> shares_at (w_ex w) pid a <= shares_at (w_ex w') pid a.
Proof.
  intros Hok H Hev Ha Hb.
  assert (Hre : forall e s t x c', recredit (w_ex w) e s t x c' -> shares_at (w_ex w) pid a <= shares_at c' pid a).
  { intros e s t x c' Hr. rewrite (shares_same _ _ _ _ (recredit_pools _ _ _ _ _ _ Hr)). lia. }
  assert (Hft : forall e s x m c' ps, w_now w <= e_now e -> e_now e < 2 ^ 64 -> ex_ft_on_transfer (w_ex w) e s x m = Some (c', ps) -> shares_at (w_ex w) pid a <= shares_at c' pid a).
  { intros e s x m c' ps Hn HW E. eapply kept_transfer; [|exact HW|exact E]. destruct Hok. eapply ex_wf_mono; eauto. }
  unfold w_step in H. cbv zeta in H. destruct ev; try contradiction.
  - bnd H u Hu. apply next_time_inv in Hu as [Hn HW]. bnd H u' Hu'. bnd H q Hq'. destruct q as [c' ps]. injection H as <-.
    destruct (queue_flights w c' (w_hold w) (w_flights w) ps (e_now e)) as (_ & _ & ->).
    assert (Hwf : ex_wf (e_now e) (w_ex w)) by (destruct Hok; eapply ex_wf_mono; eauto).
    destruct (match x with CLiquidation _ _ _ _ _ => true | _ => false end) eqn:El.
    + destruct x; try discriminate El. cbn [ex_call] in Hq'. apply liquidation_shadows in Hq' as (q & _ & _ & _ & Hx & Hs & _); [|done].
      specialize (Hs pid a). unfold only in Hs. destruct (N.eqb_spec pid q) as [->|]; [|lia]. destruct (String.eqb_spec victim a) as [->|]; lia.
    + pose proof (ex_call_spares _ _ _ _ _ Hwf HW Hq') as K. destruct x; try discriminate El; apply K; auto.
  - bnd H u Hu. injection H as <-. cbn [w_ex]. lia.
  - bnd H u Hu. apply next_time_inv in Hu as [Hn HW]. bnd H f Hf. destruct f as [t' s x msg| |]; try discriminate H. bnd H u' Hu'.
    destruct (ex_ft_on_transfer _ _ _ _ _) as [[c' ps]|] eqn:E; injection H as <-; [|cbn [w_ex]; lia].
    destruct (queue_flights w c' (w_hold w) (delete id (w_flights w)) ps (e_now e)) as (_ & _ & ->). eauto.
  - bnd H u Hu. injection H as <-. cbn [w_ex]. lia.
  - bnd H f Hf. destruct f as [|p|]; try discriminate H. destruct p; try discriminate H; bnd H u Hu; injection H as <-; cbn [w_ex]; lia.
  - bnd H u Hu. bnd H f Hf. destruct f as [| |p ok]; try discriminate H. destruct p; try discriminate H; injection H as <-; cbn [w_ex].
    + destruct (ex_callback_withdraw _ _ _ _ _ _) eqn:E; cbn [default from_option Datatypes.id]; [|lia]. unfold ex_callback_withdraw in E.
      destruct ok; [injection E as <-; lia|]. apply ex_handle_fail_inv in E. eauto.
    + destruct (ex_callback_withdraw _ _ _ _ _ _) eqn:E; cbn [default from_option Datatypes.id]; [|lia]. unfold ex_callback_withdraw in E.
      destruct ok; [injection E as <-; lia|]. apply ex_handle_fail_inv in E. eauto.
    + destruct (ex_callback_near _ _ _ _ _) as [q|] eqn:E; cbn [fmap option_fmap option_map default from_option Datatypes.id]; [|lia]. unfold ex_callback_near in E.
      destruct ok; [injection E as <-; cbn [fst]; lia|]. bnd E t Ht. bnd E c1 H1. injection E as <-. cbn [fst]. apply ex_handle_fail_inv in H1. eauto.
  - bnd H u Hu. bnd H f Hf. destruct f as [|p|]; try discriminate H. destruct p; try discriminate H. injection H as <-. cbn [w_ex].
    destruct (ex_callback_shadow _ _ _ _ _ _ _ _) as [[c' ps]|] eqn:E; cbn [fmap option_fmap option_map default from_option Datatypes.id fst]; [|lia].
    assert (K : ex_pools c' = ex_pools (w_ex w)); [|rewrite (shares_same _ _ _ _ K); lia].
    apply ex_callback_shadow_inv in E as [(_ & _ & -> & _)|[(_ & _ & _ & acc & acc1 & _ & _ & _ & ->)|(_ & acc & acc1 & _ & _ & _ & -> & _)]]; reflexivity.
  - bnd H u Hu. bnd H c' Hc'. injection H as <-. cbn [w_ex]. unfold ex_oracle in Hc'. bnd Hc' st Hs. injection Hc' as <-. reflexivity.
  - bnd H u Hu. apply next_time_inv in Hu as [Hn HW]. bnd H q Hq'. destruct q as [c' ps]. injection H as <-.
    destruct (queue_flights w c' (w_hold w) (w_flights w) ps (e_now e)) as (_ & _ & ->). eauto.
  - injection H as <-. cbn [w_ex]. lia.
Qed.

(** ** Seeds *)
Lemma append_inj (a b c : string) : a +:+ b = a +:+ c -> b = c.
Proof. induction a as [|ch a IH]; cbn [String.append]; [done|]. intros H. injection H as H. auto. Qed.
Lemma mft_seed_inj ex t t' : mft_seed ex t = mft_seed ex t' -> t = t'.
Proof. unfold mft_seed. intros H. apply append_inj in H. cbn [String.append] in H. now injection H. Qed.
Lemma seed_of_inj ex p q : seed_of ex p = seed_of ex q -> p = q.
Proof. unfold seed_of. intros H. apply mft_seed_inj in H. now apply pretty_N_inj in H. Qed.
Lemma seed_not_foreign ex t : ~ foreign ex (mft_seed ex t).
Proof. intros H. now apply (H t). Qed.

(** ** The farm's side *)
Lemma freachable_step f ev f' : SpecFarming.freachable f -> SpecFarming.fstep f ev = Some f' -> SpecFarming.freachable f'.
Proof.
  intros (o & es & Hr) H. exists o, (es ++ [ev]). revert Hr. generalize (SpecFarming.fw_new o). intros w Hr.
  induction Hr as [w|w e w1 es w2 Hs Hr IH]; cbn [app]; econstructor; eauto. constructor.
Qed.
Lemma pending_hold f i p : SpecFarming.freachable f -> SpecFarming.w_pend f !! i = Some p -> SpecFarming.pend_res p = None ->
  SpecFarming.pend_amount p <= Farming.mget (SpecFarming.w_hold f) (SpecFarming.pend_asset p).
Proof.
  intros Hw Hi Hp. destruct (PropFarming.C44_seed_accounting f (SpecFarming.pend_asset p) Hw) as [_ H].
  pose proof (msum_lookup_le (fun _ p0 => SpecFarming.pend_owes (SpecFarming.pend_asset p) p0) (SpecFarming.w_pend f) i) as Hl. rewrite Hi in Hl. cbn [contrib] in Hl.
  unfold SpecFarming.pend_owes in Hl at 1. rewrite Hp, String.eqb_refl in Hl. unfold SpecFarming.inflight in H. lia.
Qed.
Lemma paid_out_step f i s a x : SpecFarming.freachable f -> SpecFarming.w_pend f !! i = Some (SpecFarming.PSeed s a x None) ->
  SpecFarming.fstep f (SpecFarming.EvRemote i true) = Some (paid_out f i s a x).
Proof.
  intros Hw Hi. pose proof (pending_hold _ _ _ Hw Hi eq_refl) as Hh. cbn [SpecFarming.pend_amount SpecFarming.pend_asset] in Hh.
  cbn [SpecFarming.fstep]. rewrite Hi. cbn [mbind option_bind SpecFarming.pend_res SpecFarming.pend_asset SpecFarming.pend_amount SpecFarming.pend_set_res].
  rewrite csub_intro by exact Hh. reflexivity.
Qed.
(** Holdings of a seed the event is not about *)
Lemma fstep_hold f ev f' s : SpecFarming.fstep f ev = Some f' ->
  match ev with
  | SpecFarming.EvToken _ t _ _ _ | SpecFarming.EvDonate t _ => t <> s
  | SpecFarming.EvRemote i true => forall p, SpecFarming.w_pend f !! i = Some p -> SpecFarming.pend_asset p <> s
  | _ => True
  end -> Farming.mget (SpecFarming.w_hold f') s = Farming.mget (SpecFarming.w_hold f) s.
Proof.
  unfold Farming.mget. intros H Hev. destruct ev; cbn [SpecFarming.fstep] in H.
  - bnd H u Hu. bnd H q Hq. destruct q as [c' [p|]]; now injection H as <-.
  - bnd H u Hu. bnd H c' Hc. injection H as <-. cbn [SpecFarming.w_hold]. now rewrite lookup_insert_ne.
  - injection H as <-. cbn [SpecFarming.w_hold]. now rewrite lookup_insert_ne.
  - bnd H p Hp. destruct (SpecFarming.pend_res p); [discriminate H|]. bnd H h Hh. injection H as <-. cbn [SpecFarming.w_hold]. destruct ok.
    + rewrite lookup_insert_ne; [done|]. now apply Hev.
    + injection Hh as <-. destruct (decide (SpecFarming.pend_asset p = s)) as [<-|]; [now rewrite lookup_insert|now rewrite lookup_insert_ne].
  - bnd H u Hu. bnd H p Hp. destruct (SpecFarming.pend_res p) as [[]|]; try discriminate H; now injection H as <-.
Qed.
Lemma share_id_pretty p q : mft_pool_of (share_id (pretty p)) = Some q -> q = p.
Proof.
  unfold share_id. cbn [String.append]. intros H. apply C62_ids_read in H as (_ & r & [E|E] & Hd).
  - injection E as <-. pose proof (decimal_pretty p) as K. unfold decimal in Hd. destruct (pretty p); [discriminate Hd|]. congruence.
  - injection E as E. pose proof (decimal_pretty p) as K. rewrite E in K. vm_compute in K. discriminate K.
Qed.

(** ** The invariant *)
Record k_inv (fa : AccountId) (k : Stakes) : Prop := {
  ki_ok : w_ok (k_w k);
  ki_farm : SpecFarming.freachable (k_f k);
  ki_self : fa <> k_self k;
  ki_answers : forall id r, k_answers k !! id = Some r -> is_Some (notices (k_w k) !! id) /\ (r = None \/ r = Some 0);
  ki_stakes : forall pid, farm_at (w_ex (k_w k)) pid fa = 0 /\ burrow_at (w_ex (k_w k)) pid fa = 0;
  ki_hold : forall pid, k_hold k (seed_of (k_self k) pid) + on_the_way fa k pid <= shares_at (w_ex (k_w k)) pid fa;
  ki_none : forall t, (forall pid : N, t <> pretty pid) -> k_hold k (mft_seed (k_self k) t) = 0;
}.
Lemma k_inv_start fa k : k_start fa k -> k_inv fa k.
Proof.
  intros (Hok & Hf & Hne & Ha & Hn & Hs & Hh & Ho). constructor; auto.
  - intros id r H. rewrite Ha, lookup_empty in H. discriminate H.
  - intros pid. assert (on_the_way fa k pid = 0) as ->; [|specialize (Hh pid); lia].
    apply msum_zero. intros id n Hi. apply Hn in Hi. unfold unstaked. now rewrite (proj2 (String.eqb_neq _ _) Hi).
Qed.

Lemma same_self w ev w' : w_ok w -> w_step w ev = Some w' -> ex_self (w_ex w') = ex_self (w_ex w).
Proof. intros Hok H. now apply w_step_any in H as (_ & _ & _ & _ & H). Qed.
(** What a resolution can take from the receiver *)
Lemma resolve_takes now c n ret c' fa pid answer : ex_wf now c -> c' = default c (ex_mft_resolve c (nt_id n) (nt_from n) (nt_to n) (nt_amount n) ret) ->
  (nt_to n = fa -> answer = Some ret /\ (ret = None \/ ret = Some 0)) ->
  shares_at c pid fa <= shares_at c' pid fa + unstaked fa pid answer n.
Proof.
  intros Hwf -> Ha. destruct (ex_mft_resolve _ _ _ _ _ _) as [c'|] eqn:E; cbn [default from_option Datatypes.id]; [|lia].
  pose proof E as E'. apply (C32_resolve now) in E as (y & b & Hy & Hz & _ & Hc); [|done]. destruct Hc as [[-> _]|[Hne Hm]]; [lia|].
  unfold mft_moved in Hm. unfold unstaked. destruct (String.eqb_spec (nt_to n) fa) as [Et|Et].
  - destruct (Ha Et) as [-> Hr]. destruct (mft_pool_of (nt_id n)) as [q|] eqn:Eq.
    + destruct Hm as (Hm & _). specialize (Hm pid fa). rewrite Et in Hm. unfold only in Hm. rewrite String.eqb_refl in Hm.
      destruct (N.eqb_spec pid q) as [->|Hpq]; [|lia]. rewrite bool_decide_eq_true_2 by done. cbn [andb].
      destruct Hr as [->| ->]; [destruct (String.eqb b fa); lia|]. specialize (Hz 0 eq_refl). lia.
    + destruct Hm as [_ Hm]. rewrite (shares_same _ _ _ _ Hm). lia.
  - destruct (mft_pool_of (nt_id n)) as [q|] eqn:Eq.
    + destruct Hm as (Hm & _). specialize (Hm pid fa). unfold only in Hm. rewrite (proj2 (String.eqb_neq _ _) Et) in Hm. destruct (pid =? q); lia.
    + destruct Hm as [_ Hm]. rewrite (shares_same _ _ _ _ Hm). lia.
Qed.
Lemma pretty_dec t q : mft_pool_of (share_id t) = Some q -> t = pretty q \/ forall p : N, t <> pretty p.
Proof.
  intros H. destruct (decide (t = pretty q)) as [->|Hn]; [auto|]. right. intros p ->. apply share_id_pretty in H. subst p. done.
Qed.

Lemma k_inv_step fa k k' : k_inv fa k -> k_step fa k k' -> k_inv fa k'.
Proof.
  intros Hi H. pose proof (ki_ok _ _ Hi) as Hok. pose proof (ki_farm _ _ Hi) as Hfr. pose proof (ki_self _ _ Hi) as Hself. pose proof (ki_answers _ _ Hi) as Hans.
  pose proof (ki_stakes _ _ Hi) as Hst. pose proof (ki_hold _ _ Hi) as Hh. pose proof (ki_none _ _ Hi) as Hnn.
  destruct H as [ev w' Hev H|ev f' Hev H|id n pid now f' Hn Hto Han Hp H|id n Hn Hto Han|i e t a x w' Hpd Hca H].
  - assert (Hok' : w_ok w') by now apply w_step_any in H as (? & _).
    pose proof (same_self _ _ _ Hok H) as Es. pose proof (w_step_notices _ _ _ Hok H) as Hnt.
    assert (Est : forall pid, farm_at (w_ex w') pid fa = 0 /\ burrow_at (w_ex w') pid fa = 0).
    { intros pid. destruct (w_step_stakes _ _ _ fa pid Hok H) as [A B]; [destruct ev; cbn [exchange_event] in Hev; auto|]. destruct (Hst pid). lia. }
    assert (Ek : k_self (mkStakes w' (k_f k) (answer_used (k_answers k) ev)) = k_self k) by exact Es.
    assert (Hsp : forall pid, match ev with EvMftResolve _ _ _ => False | _ => True end -> shares_at (w_ex (k_w k)) pid fa <= shares_at (w_ex w') pid fa).
    { intros pid Hnr. eapply w_step_spares; eauto; [|apply Hst]. destruct ev; cbn [exchange_event] in Hev; auto. }
    destruct (match ev with EvMftResolve _ _ _ => true | EvCall _ x => is_mft_call x | _ => false end) eqn:Ec.
    2: { assert (Hq : notices w' = notices (k_w k) /\ answer_used (k_answers k) ev = k_answers k /\ match ev with EvMftResolve _ _ _ => False | _ => True end).
         { destruct ev; try discriminate Ec; auto. destruct x; try discriminate Ec; auto. }
         destruct Hq as (Q1 & Q2 & Q3). constructor; rewrite ?Ek; cbn [k_w k_f k_answers]; rewrite ?Q2; auto.
         - intros id r Hr. rewrite Q1. auto.
         - intros pid. specialize (Hsp pid Q3). unfold on_the_way. cbn [k_w k_f k_answers]. rewrite Q1, ?Q2.
           unfold k_hold. cbn [k_f]. specialize (Hh pid). unfold on_the_way, k_hold in Hh. lia. }
    destruct ev; try discriminate Ec.
    + destruct x; try discriminate Ec. destruct Hnt as (x & Hx & Hnew & Hnt). cbn [exchange_event answer_used] in *.
      assert (Hnone : k_answers k !! w_next (k_w k) = None).
      { destruct (k_answers k !! w_next (k_w k)) as [r|] eqn:E; [|done]. apply Hans in E as [E _]. rewrite Hnew in E. now destruct E. }
      apply (mft_transfer_moved (w_now (k_w k))) in Hx as (Hne & _ & Hm & Hm'); [|apply Hok].
      constructor; rewrite ?Ek; cbn [k_w k_f k_answers]; auto.
      * intros j r Hr. rewrite Hnt. destruct (Hans _ _ Hr) as [A B]. split; [|done]. destruct (decide (w_next (k_w k) = j)) as [<-|]; [rewrite lookup_insert; eauto|now rewrite lookup_insert_ne].
      * intros pid. unfold on_the_way. cbn [k_w k_f k_answers]. rewrite Hnt, msum_insert_None by done. rewrite Hnone. specialize (Hh pid). unfold on_the_way in Hh. unfold k_hold in *. cbn [k_f].
        assert (K : shares_at (w_ex w') pid fa = shares_at (w_ex (k_w k)) pid fa + unstaked fa pid None (mkNotice id (e_caller e) receiver x)); [|lia].
        unfold unstaked, mft_moved in *. cbn [nt_to nt_id nt_amount]. destruct (mft_pool_of id) as [q|].
        -- destruct Hm as (Hm & _). specialize (Hm pid fa). unfold only in Hm. rewrite (proj2 (String.eqb_neq _ _) Hev) in Hm.
           destruct (N.eqb_spec pid q) as [->|Hpq].
           ++ rewrite bool_decide_eq_true_2 by done. rewrite andb_true_r. destruct (String.eqb receiver fa); lia.
           ++ rewrite bool_decide_eq_false_2 by congruence. rewrite andb_false_r. lia.
        -- destruct Hm as [_ Hm]. rewrite (shares_same _ _ _ _ Hm). rewrite andb_false_r. lia.
    + destruct Hnt as (n & Hn & Hnt & Hc). cbn [exchange_event answer_used] in *.
      constructor; rewrite ?Ek; cbn [k_w k_f k_answers]; auto.
      * intros j r Hr. apply lookup_delete_Some in Hr as [Hj Hr]. rewrite Hnt, lookup_delete_ne by done. auto.
      * intros pid. specialize (Hh pid). unfold k_hold in *. cbn [k_f].
        assert (K : on_the_way fa (mkStakes w' (k_f k) (delete id (k_answers k))) pid + unstaked fa pid (k_answers k !! id) n = on_the_way fa k pid).
        { unfold on_the_way. cbn [k_w k_answers]. rewrite (msum_delete _ (notices (k_w k)) id n Hn). rewrite Hnt, N.add_comm. f_equal.
          apply msum_ext. intros j m Hj. apply lookup_delete_Some in Hj as [Hj _]. now rewrite lookup_delete_ne. }
        pose proof (resolve_takes (w_now (k_w k)) (w_ex (k_w k)) n ret (w_ex w') fa pid (k_answers k !! id) (proj1 Hok) Hc) as R.
        assert (nt_to n = fa -> k_answers k !! id = Some ret /\ (ret = None \/ ret = Some 0)) as R1; [|specialize (R R1); lia].
        intros Ht. pose proof (Hev n Hn Ht) as A. split; [done|]. now apply Hans in A as [_ A].
  - assert (E : forall t, k_hold (mkStakes (k_w k) f' (k_answers k)) (mft_seed (k_self k) t) = k_hold k (mft_seed (k_self k) t)).
    { intros t. unfold k_hold. cbn [k_f]. eapply fstep_hold; [exact H|]. destruct ev; cbn [farm_event] in Hev; auto. destruct ok; [|done]. intros p Hp. apply (Hev p Hp). }
    constructor; auto; cbn [k_w k_f k_answers].
    + eapply freachable_step; eauto.
    + intros pid. specialize (Hh pid). unfold seed_of in *. change (k_self (mkStakes (k_w k) f' (k_answers k))) with (k_self k). rewrite E. exact Hh.
    + intros t Ht. change (k_self (mkStakes (k_w k) f' (k_answers k))) with (k_self k). rewrite E. auto.
  - assert (E : forall s, s <> seed_of (k_self k) pid -> Farming.mget (SpecFarming.w_hold f') s = Farming.mget (SpecFarming.w_hold (k_f k)) s).
    { intros s Hs. eapply fstep_hold; [exact H|]. cbn iota; intros Es; apply Hs; now symmetry. }
    assert (E' : Farming.mget (SpecFarming.w_hold f') (seed_of (k_self k) pid) = Farming.mget (SpecFarming.w_hold (k_f k)) (seed_of (k_self k) pid) + nt_amount n).
    { cbn [SpecFarming.fstep] in H. bnd H u Hu. bnd H c' Hc. injection H as <-. cbn [SpecFarming.w_hold]. unfold Farming.mget at 1. now rewrite lookup_insert. }
    constructor; auto; cbn [k_w k_f k_answers].
    + eapply freachable_step; eauto.
    + intros j r Hr. destruct (decide (id = j)) as [<-|Hj]; [rewrite lookup_insert in Hr; injection Hr as <-; split; eauto|rewrite lookup_insert_ne in Hr by done; auto].
    + intros q. change (k_self (mkStakes (k_w k) f' (<[id := Some 0]> (k_answers k)))) with (k_self k). specialize (Hh q).
      assert (K : on_the_way fa (mkStakes (k_w k) f' (<[id := Some 0]> (k_answers k))) q + (if pid =? q then nt_amount n else 0) = on_the_way fa k q).
      { unfold on_the_way. cbn [k_w k_answers]. rewrite !(msum_delete _ (notices (k_w k)) id n Hn). rewrite lookup_insert, Han.
        rewrite (msum_ext (fun id0 n0 => unstaked fa q (<[id := Some 0]> (k_answers k) !! id0) n0) (fun id0 n0 => unstaked fa q (k_answers k !! id0) n0)).
        - unfold unstaked at 1 3. rewrite Hto, String.eqb_refl, Hp. cbn [andb]. destruct (N.eqb_spec pid q) as [->|Hpq].
          + rewrite bool_decide_eq_true_2 by done. lia.
          + rewrite bool_decide_eq_false_2 by congruence. lia.
        - intros j m Hj. apply lookup_delete_Some in Hj as [Hj _]. now rewrite lookup_insert_ne. }
      unfold k_hold in *. cbn [k_f]. destruct (N.eqb_spec pid q) as [->|Hpq]; [rewrite E'; lia|]. rewrite E; [lia|]. intros Hs. apply seed_of_inj in Hs. congruence.
    + intros t Ht. change (k_self (mkStakes (k_w k) f' (<[id := Some 0]> (k_answers k)))) with (k_self k). unfold k_hold. cbn [k_f]. rewrite E; [now apply Hnn|].
      unfold seed_of. intros Hs. apply mft_seed_inj in Hs. now apply (Ht pid).
  - constructor; auto; cbn [k_w k_f k_answers].
    + intros j r Hr. destruct (decide (id = j)) as [<-|Hj]; [rewrite lookup_insert in Hr; injection Hr as <-; split; eauto|rewrite lookup_insert_ne in Hr by done; auto].
    + intros q. specialize (Hh q). change (k_self (mkStakes (k_w k) (k_f k) (<[id := None]> (k_answers k)))) with (k_self k).
      assert (K : on_the_way fa (mkStakes (k_w k) (k_f k) (<[id := None]> (k_answers k))) q = on_the_way fa k q); [|rewrite K; exact Hh].
      unfold on_the_way. cbn [k_w k_answers]. apply msum_ext. intros j m Hj. destruct (decide (id = j)) as [<-|]; [rewrite lookup_insert, Han; reflexivity|now rewrite lookup_insert_ne].
  - assert (Hok' : w_ok w') by now apply w_step_any in H as (? & _).
    pose proof (same_self _ _ _ Hok H) as Es. pose proof (w_step_notices _ _ _ Hok H) as Hnt. cbn iota in Hnt.
    set (s := mft_seed (k_self k) t) in *.
    assert (Ek : k_self (mkStakes w' (paid_out (k_f k) i s a x) (k_answers k)) = k_self k) by exact Es.
    assert (Hd : x <= Farming.mget (SpecFarming.w_hold (k_f k)) s) by exact (pending_hold _ _ _ Hfr Hpd eq_refl).
    assert (Hhold : forall u, k_hold (mkStakes w' (paid_out (k_f k) i s a x) (k_answers k)) u = if decide (u = s) then k_hold k s - x else k_hold k u).
    { intros u. unfold k_hold, Farming.mget. cbn [k_f paid_out SpecFarming.w_hold]. destruct (decide (u = s)) as [->|]; [now rewrite lookup_insert|rewrite lookup_insert_ne by congruence; reflexivity]. }
    constructor; rewrite ?Ek; cbn [k_w k_f k_answers]; auto.
    + eapply freachable_step; [exact Hfr|]. now apply paid_out_step.
    + intros id r Hr. rewrite Hnt. auto.
    + intros pid. destruct (w_step_quiet _ _ _ Hok H eq_refl) as [F _]. unfold farm_at, burrow_at in *. rewrite (F pid fa). apply Hst.
    + intros pid. assert (Eo : on_the_way fa (mkStakes w' (paid_out (k_f k) i s a x) (k_answers k)) pid = on_the_way fa k pid) by (unfold on_the_way; cbn [k_w k_answers]; now rewrite Hnt).
      rewrite Eo, Hhold. unfold w_step in H. cbv zeta in H. bnd H u Hu. apply next_time_inv in Hu as [Hn HW]. bnd H u' Hu'. bnd H z Hz. destruct z as [c' ps]. injection H as <-.
      destruct (queue_flights (k_w k) c' (w_hold (k_w k)) (w_flights (k_w k)) ps (e_now e)) as (_ & _ & ->).
      assert (Hwf : ex_wf (e_now e) (w_ex (k_w k))) by (destruct Hok; eapply ex_wf_mono; eauto).
      cbn [ex_call] in Hz. apply quiet_inv in Hz as [Hz ->]. apply ex_mft_transfer_free_inv in Hz as (_ & _ & Hz).
      apply (mft_transfer_moved (e_now e)) in Hz as (Hne & _ & Hm & Hm'); [|done]. rewrite Hca in *. unfold mft_moved in Hm. specialize (Hh pid). unfold k_hold in *.
      destruct (mft_pool_of (share_id t)) as [q|] eqn:Eq.
      * destruct Hm' as (Hx0 & _). destruct (pretty_dec _ _ Eq) as [->|Hnp].
        -- destruct Hm as (Hm & _). specialize (Hm pid fa). unfold only in Hm. rewrite String.eqb_refl in Hm. rewrite (proj2 (String.eqb_neq a fa)) in Hm by congruence.
           subst s. clear Hhold Ek. destruct (N.eqb_spec pid q) as [Epq|Hpq].
           ++ rewrite Epq in *. unfold seed_of in *. rewrite decide_True by done. lia.
           ++ rewrite decide_False by (intros Hs; apply mft_seed_inj in Hs; apply pretty_N_inj in Hs; congruence). lia.
        -- exfalso. specialize (Hnn t Hnp). unfold k_hold in Hnn. subst s. lia.
      * destruct Hm as [_ Hm]. rewrite (shares_same _ _ _ _ Hm). destruct (decide _) as [E|]; [rewrite <- E|]; lia.
    + intros u Hu. rewrite Hhold. destruct (decide _) as [E|]; [|now apply Hnn]. apply mft_seed_inj in E. subst u. unfold s. rewrite (Hnn t Hu). lia.
Qed.
Lemma k_inv_reach fa k0 k : k_start fa k0 -> k_reach fa k0 k -> k_inv fa k.
Proof. intros Hs H. induction H as [|k k' Hr IH H]; [now apply k_inv_start|]. eapply k_inv_step; eauto. Qed.
