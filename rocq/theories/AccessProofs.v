(** * Guards, pool parameters and oracle registrations: proofs *)
From Verif Require Import Base BaseLemmas SimplePool SimplePoolProofs SpecSimple SimplePoolInv StableMath StablePool
  SpecStable StablePoolProofs StablePoolInv Rates Echo Twap Account Pool Exchange SpecExchange AccountProofs PoolFacts
  ExchangeProofs ExchangeInv ExchangeEffect ExchangeFrames SpecWorld WorldProofs SpecSwap SwapProofs SpecHistory HistoryProofs SpecAccess.

(** ** Guards *)
Lemma owner_trusted c e : owner_call c e = Some tt -> e_caller e = cf_owner (ex_cfg c).
Proof. unfold owner_call. intros H. grd H. apply ensure_Some in H. now apply String.eqb_eq in H. Qed.
Lemma guard_trusted c e : guard_call c e = Some tt -> trusted c (e_caller e).
Proof.
  unfold guard_call. intros H. grd H. apply ensure_Some in H. unfold is_guard in H. apply orb_true_iff in H as [H|H].
  - left. now apply String.eqb_eq in H.
  - right. now apply bool_decide_eq_true in H.
Qed.
Ltac first_guard H :=
  match type of H with
  | mbind _ (owner_call ?c ?e) = Some _ => let u := fresh "u" in let Hu := fresh "Hu" in bnd H u Hu; destruct u; apply owner_trusted in Hu
  | mbind _ (guard_call ?c ?e) = Some _ => let u := fresh "u" in let Hu := fresh "Hu" in bnd H u Hu; destruct u; apply guard_trusted in Hu
  end.
Ltac open_call H :=
  unfold ex_register_twap, ex_unregister_twap, ex_modify_interval, ex_sync_twap, ex_set_owner, ex_retrieve, ex_add_stable_pool,
       ex_extend_guardians, ex_remove_guardians, ex_extend_postfix, ex_remove_postfix, ex_modify_farm, ex_modify_burrow, ex_modify_wnear,
       ex_change_state, ex_extend_whitelist, ex_remove_whitelist, ex_extend_frozen, ex_remove_frozen, ex_put_referral, ex_remove_referral,
       ex_modify_admin_fee, ex_modify_total_fee, ex_remove_fee_liquidity, ex_withdraw_owner, ex_ramp, ex_stop_ramp,
       ex_rate_admin, ex_add_limit, ex_update_limit, ex_remove_limit, ex_extend_echo, ex_remove_echo in H.
Lemma is_guard_inv c e : is_guard c e = true -> trusted c (e_caller e).
Proof. unfold is_guard. intros H. apply orb_true_iff in H as [H|H]; [left; now apply String.eqb_eq in H|right; now apply bool_decide_eq_true in H]. Qed.
Lemma privileged_call c e x c' ps : privileged x = true -> ex_call c e x = Some (c', ps) -> trusted c (e_caller e).
Proof.
  intros Hx H. destruct x; try discriminate Hx; clear Hx; cbn [ex_call] in H; try (apply quiet_inv in H as [H ->]); open_call H;
    try (first_guard H; first [done|now left]).
  - grd H. now apply is_guard_inv.
  - destruct (rate_admin_owner_only a); first_guard H; [now left|done].
Qed.
Lemma owner_call_only c e x c' ps : for_owner x = true -> ex_call c e x = Some (c', ps) -> e_caller e = cf_owner (ex_cfg c).
Proof.
  intros Hx H. destruct x; try discriminate Hx; cbn [ex_call] in H; try (apply quiet_inv in H as [H ->]); open_call H;
    try (first_guard H; done).
  destruct a; try discriminate Hx; cbn [rate_admin_owner_only] in H; first_guard H; done.
Qed.

(** ** Pool parameters *)
Lemma params_refl c : params_kept c c. Proof. intros pid p H. eauto. Qed.
Lemma params_same c c' : ex_pools c' = ex_pools c -> params_kept c c'.
Proof. intros E pid p H. unfold ex_pool in *. rewrite E. eauto. Qed.
Lemma params_trans a b c : params_kept a b -> params_kept b c -> params_kept a c.
Proof. intros H1 H2 pid p H. destruct (H1 _ _ H) as (p1 & A & B). destruct (H2 _ _ A) as (p2 & C & D). exists p2. split; [done|congruence]. Qed.
Lemma params_insert c c' pid p p' : ex_pool c pid = Some p -> ex_pools c' = <[N.to_nat pid := p']> (ex_pools c) -> pl_params p' = pl_params p -> params_kept c c'.
Proof.
  intros Hp E Hq q q0 H. unfold ex_pool in *. rewrite E. destruct (decide (N.to_nat pid = N.to_nat q)) as [En|].
  - rewrite En in *. rewrite H in Hp. injection Hp as ->. exists p'. split; [|done]. apply list_lookup_insert. eapply lookup_lt_Some; eauto.
  - rewrite list_lookup_insert_ne by done. eauto.
Qed.
Lemma params_app c c' l : ex_pools c' = ex_pools c ++ l -> params_kept c c'.
Proof. intros E pid p H. exists p. split; [|done]. unfold ex_pool in *. rewrite E. now apply lookup_app_l_Some. Qed.

Lemma params_add p s am v p' taken sh : pl_add_liquidity p s am v = Some (p', taken, sh) -> pl_params p' = pl_params p.
Proof.
  destruct p as [q|q]; cbn [pl_add_liquidity]; [|done]. intros H. bnd H z Hz. destruct z as [[q' t] s']. injection H as <- _ _.
  unfold sp_add_liquidity in Hz. bnd Hz u Hu. bnd Hz z Hz'. destruct z as [[r tk] sh']. bnd Hz q1 H1. bnd Hz u' Hu'. injection Hz as <- _ _.
  apply sp_mint_inv in H1 as [-> _]. done.
Qed.
Lemma params_add_stable p rs now s am mn f v p' sh : pl_add_stable_liquidity p rs now s am mn f v = Some (p', sh) -> pl_params p' = pl_params p.
Proof.
  destruct p as [q|q]; cbn [pl_add_stable_liquidity]; [done|]. intros H. bnd H z Hz. destruct z as [q' s']. injection H as <- _.
  apply st_add_inv in Hz as (? & ? & ? & ? & ? & ? & _ & _ & _ & _ & _ & _ & -> & _). done.
Qed.
Lemma params_remove p s sh mins v p' out : pl_remove_liquidity p s sh mins v = Some (p', out) -> pl_params p' = pl_params p.
Proof.
  destruct p as [q|q]; cbn [pl_remove_liquidity]; intros H; bnd H z Hz; destruct z as [q' s']; injection H as <- _.
  - unfold sp_remove_liquidity in Hz. bnd Hz u Hu. bnd Hz m Hm. bnd Hz z Hz'. destruct z as [am r]. bnd Hz x Hx. injection Hz as <- _. done.
  - apply st_remove_shares_inv in Hz as (? & ? & _ & _ & _ & -> & _). done.
Qed.
Lemma params_remove_tokens p rs now s am mx f v p' b : pl_remove_by_tokens p rs now s am mx f v = Some (p', b) -> pl_params p' = pl_params p.
Proof.
  destruct p as [q|q]; cbn [pl_remove_by_tokens]; [done|]. intros H. bnd H z Hz. destruct z as [q' s']. injection H as <- _.
  apply st_remove_tokens_inv in Hz as (? & ? & ? & ? & ? & ? & _ & _ & _ & _ & _ & _ & _ & _ & -> & _). done.
Qed.
Lemma params_swap p rs now ti x to mn f v p' out : pl_swap p rs now ti x to mn f v = Some (p', out) -> pl_params p' = pl_params p.
Proof.
  destruct p as [q|q]; cbn [pl_swap]; intros H; bnd H z Hz; destruct z as [q' s']; injection H as <- _.
  - apply sp_swap_inv in Hz as (_ & _ & i & j & x' & y & _ & _ & Hij & _ & _ & _ & _ & _ & _ & _ & H).
    apply sp_update_inv in H as (? & ? & ? & ? & _ & _ & _ & _ & -> & _); done.
  - apply st_swap_inv in Hz as (? & ? & ? & ? & ? & ? & ? & ? & ? & ? & ? & ? & _ & _ & _ & _ & _ & _ & _ & _
    & _ & _ & _ & _ & _ & _ & _ & _ & _ & _ & -> & _). done.
Qed.
Lemma params_swap_by_output p ti x to mx f v p' inp : pl_swap_by_output p ti x to mx f v = Some (p', inp) -> pl_params p' = pl_params p.
Proof.
  destruct p as [q|q]; cbn [pl_swap_by_output]; [|done]. intros H; bnd H z Hz; destruct z as [q' s']; injection H as <- _.
  apply sp_swap_by_output_inv in Hz as (_ & _ & i & j & x' & y & _ & _ & Hij & _ & _ & _ & _ & _ & _ & _ & _ & H).
  apply sp_update_inv in H as (? & ? & ? & ? & _ & _ & _ & _ & -> & _); done.
Qed.
Lemma params_transfer p s r x p' : pl_share_transfer p s r x = Some p' -> pl_params p' = pl_params p.
Proof.
  destruct p as [q|q]; cbn [pl_share_transfer]; intros H; apply fmap_Some in H as (q' & H & ->).
  - apply sp_transfer_inv in H as (b & bo & _ & _ & _ & _ & ->). done.
  - apply st_transfer_inv in H as (b & bo & _ & _ & _ & _ & ->). done.
Qed.
Lemma params_register p a p' : pl_share_register p a = Some p' -> pl_params p' = pl_params p.
Proof.
  destruct p as [q|q]; cbn [pl_share_register]; intros H; apply fmap_Some in H as (q' & H & ->).
  - unfold sp_share_register in H; inv; subst. done.
  - apply st_register_inv in H as [_ ->]. done.
Qed.
Lemma params_unregister p a p' : pl_share_unregister p a = Some p' -> pl_params p' = pl_params p.
Proof.
  destruct p as [q|q]; cbn [pl_share_unregister]; intros H; apply fmap_Some in H as (q' & H & ->).
  - unfold sp_share_unregister in H; inv; subst. done.
  - apply st_unregister_inv in H as [_ ->]. done.
Qed.
Lemma params_trade e r c d c' : trade_step e r c d c' -> params_kept c c'.
Proof.
  intros (p & p' & Hp & Hps & [[mn H]|[mx H]]); eapply params_insert; eauto; [eapply params_swap|eapply params_swap_by_output]; eauto.
Qed.
Lemma params_trades e r c ts c' : trades e r c ts c' -> params_kept c c'.
Proof. induction 1; [now apply params_same|eapply params_trans; [eapply params_trade|]; eauto]. Qed.
Lemma params_swap_call c e pid ti a to mn r c' out : ex_pool_swap c e pid ti a to mn r = Some (c', out) -> params_kept c c'.
Proof.
  unfold ex_pool_swap. intros H. bnd H c1 Hc1. apply ex_update_twap_frame in Hc1 as (tw & ->). bnd H p Hp. bnd H q Hq. destruct q as [p' o].
  bnd H ii Hii. bnd H io Hio. bnd H v Hv. injection H as <- <-. eapply params_insert; [exact Hp|reflexivity|eapply params_swap; eauto].
Qed.
Lemma params_output_call c e pid ti a to mx r c' inp : ex_pool_swap_by_output c e pid ti a to mx r = Some (c', inp) -> params_kept c c'.
Proof.
  unfold ex_pool_swap_by_output. intros H. bnd H c1 Hc1. apply ex_update_twap_frame in Hc1 as (tw & ->). bnd H p Hp. bnd H q Hq. destruct q as [p' o].
  bnd H ii Hii. bnd H io Hio. bnd H v Hv. injection H as <- <-. eapply params_insert; [exact Hp|reflexivity|eapply params_swap_by_output; eauto].
Qed.
Lemma params_action c e acc r a prev c' acc' x : ex_exec_action c e acc r a prev = Some (c', acc', x) -> params_kept c c'.
Proof.
  unfold ex_exec_action. intros H. destruct a.
  - bnd H amt Hamt. bnd H acc1 H1. bnd H q Hq. destruct q as [c1 o]. bnd H acc2 H2. injection H as <- <- <-. eapply params_swap_call; eauto.
  - bnd H amt Hamt. bnd H q Hq. destruct q as [c1 o]. injection H as <- <- <-. eapply params_output_call; eauto.
Qed.
Lemma params_execute c e acc r l prev skip c' acc' res : ex_execute c e acc r l prev skip = Some (c', acc', res) -> params_kept c c'.
Proof.
  unfold ex_execute. intros H. grd H. grd H. bnd H a0 Ha0. bnd H q Hq. destruct q as [[c1 acc1] x]. bnd H u Hu. injection H as <- <- <-.
  destruct (is_swap a0).
  - clear -Hq. revert c acc prev Hq. induction l as [|a l IH]; intros c acc prev H; cbn [ex_swap_loop] in H.
    + injection H as <- <- <-. apply params_refl.
    + bnd H q Hq. destruct q as [[c2 acc2] y]. apply params_action in Hq. apply IH in H. eapply params_trans; eauto.
  - clear -Hq. revert Hq. generalize (@None AccountId) as pi. intros pi Hq.
    revert c acc prev pi Hq. induction l as [|a l IH]; intros c acc prev pi H; cbn [ex_output_loop] in H.
    + bnd H q Hq. injection H as <- <- <-. apply params_refl.
    + bnd H acc0 Hacc0. bnd H q Hq. destruct q as [[c2 acc2] y]. apply params_action in Hq. apply IH in H. eapply params_trans; eauto.
Qed.
Lemma params_direct c e t x r l skip c' outs : ex_direct c e t x r l skip = Some (c', outs) -> params_kept c c'.
Proof. intros H. apply ex_direct_inv in H as (va & prev & va' & res & _ & H & _). eapply params_execute; eauto. Qed.
Lemma params_zap e s l : forall c m c' m', ex_zap_loop c e s m l = Some (c', m') -> params_kept c c'.
Proof.
  induction l as [|i l IH]; intros c m c' m' H; cbn [ex_zap_loop] in H; [injection H as <- <-; apply params_refl|].
  bnd H q Hq. destruct q as [c1 m1]. eapply params_trans; [|eapply IH; eauto]. clear H IH.
  unfold ex_zap_one in Hq. bnd Hq p Hp. bnd Hq z Hz. destruct z as [p' am]. bnd Hq u Hu. bnd Hq m2 Hm. injection Hq as <- _.
  eapply params_insert; [exact Hp|reflexivity|]. destruct p.
  - bnd Hz z Hz'. destruct z as [[p1 tk] sh]. bnd Hz ms Hms. bnd Hz u' Hu'. injection Hz as <- _. eapply params_add; eauto.
  - bnd Hz mn Hmn. bnd Hz z Hz'. destruct z as [p1 sh]. injection Hz as <- _. eapply params_add_stable; eauto.
Qed.
Lemma params_transfer_in c e s x m c' ps : ex_ft_on_transfer c e s x m = Some (c', ps) -> params_kept c c'.
Proof.
  unfold ex_ft_on_transfer. intros H. cbv zeta in H. grd H. grd H. destruct m as [|r l echo su rc skip|r l infos skip].
  - grd H. bnd H c1 H1. injection H as <- <-. apply ex_deposit_inv in H1 as (acc & acc' & _ & _ & _ & _ & ->). now apply params_same.
  - grd H. grd H. bnd H u Hu. bnd H d Hd. destruct d as [c1 outs]. grd H. injection H as <- <-. eapply params_direct; eauto.
  - bnd H c1 H1. injection H as <- <-. apply ex_hot_zap_inv in H1 as (acc & ts & c2 & outs & m & c3 & m' & acc' & _ & _ & _ & _ & _ & _ & Hd & _ & Hz & _ & _ & _ & ->).
    eapply params_trans; [eapply params_direct; eauto|]. eapply params_trans; [eapply params_zap; eauto|]. now apply params_same.
Qed.
(** Calls that are not privileged keep every pool's parameters. *)
Lemma ex_call_params c e x c' ps : privileged x = false -> ex_call c e x = Some (c', ps) -> params_kept c c'.
Proof.
  intros Hx H. destruct (is_settings x) eqn:Es; [apply settings_call in H as [(_ & Hp & _) _]; [now apply params_same|done]|].
  call_cases x Es H; try discriminate Hx; try (apply params_same; reflexivity).
  all: try (eapply params_insert; [eassumption|reflexivity|];
    first [eapply params_add; eassumption|eapply params_add_stable; eassumption|eapply params_remove; eassumption|eapply params_remove_tokens; eassumption
          |eapply params_transfer; eassumption|eapply params_register; eassumption|eapply params_unregister; eassumption]).
  - now apply params_app with (l := [p']).
  - eapply params_trans; [eapply params_execute; eauto|now apply params_same].
  - eapply params_trans; [eapply params_execute; eauto|now apply params_same].
  - eapply params_trans; [eapply params_execute; eauto|now apply params_same].
  - eapply params_trans; [eapply params_execute; eauto|now apply params_same].
  - eapply params_insert; [eassumption|reflexivity|]. transitivity (pl_params p1); [|eapply params_transfer; eassumption].
    destruct unregister; [eapply params_unregister; eassumption|congruence].
  - eapply params_insert; [eassumption|reflexivity|]. transitivity (pl_params p1); [|eapply params_transfer; eassumption].
    destruct unregister; [eapply params_unregister; eassumption|congruence].
Qed.
(** ... and all settings and rates. *)
Lemma ex_call_cfg c e x c' ps : privileged x = false -> ex_call c e x = Some (c', ps) -> ex_cfg c' = ex_cfg c /\ ex_rates c' = ex_rates c.
Proof.
  intros Hx H. destruct (is_settings x) eqn:Es; [|apply ex_call_settings in H as (A & B & _); auto].
  destruct x; try discriminate Es; try discriminate Hx. cbn [ex_call] in H. apply quiet_inv in H as [H ->]. unfold ex_sync_twap in H.
  grd H. bnd H i Hi. bnd H u Hu. bnd H am Ham. bnd H i' Hi'. injection H as <-. done.
Qed.

(** ** Oracle registrations *)
Lemma fmap_insert_same {A B} (f : A -> B) (m : gmap AccountId A) t x y : m !! t = Some x -> f y = f x -> f <$> <[t := y]> m = f <$> m.
Proof. intros Hm Hf. rewrite fmap_insert, Hf. apply insert_id. now rewrite lookup_fmap, Hm. Qed.
Lemma degen_asked s t d price now : rs_degens s !! t = Some d -> asked (rs_set_degens s (<[t := degen_update d price now]> (rs_degens s))) = asked s.
Proof. intros H. unfold asked. cbn [rs_set_degens rs_rates rs_degens rs_price_cfg rs_pyth_cfg]. now rewrite (fmap_insert_same dg_src _ _ _ _ H). Qed.
Lemma batch_prices_asked now decs l : forall s s', rs_batch_prices s now decs l = Some s' -> asked s' = asked s.
Proof.
  induction l as [|[t [p|]] l IH]; intros s s' H; cbn [rs_batch_prices] in H; [now injection H as <-| |now apply IH].
  destruct (decs !! t) as [dec|]; [|now apply IH]. bnd H d Hd. bnd H pr Hpr. apply IH in H. rewrite H. now apply degen_asked.
Qed.
Lemma set_all_asked now price ts : forall s s', rs_set_all s now price ts = Some s' -> asked s' = asked s.
Proof.
  induction ts as [|t ts IH]; intros s s' H; cbn [rs_set_all] in H; [now injection H as <-|].
  bnd H d Hd. apply IH in H. rewrite H. now apply degen_asked.
Qed.
Lemma batch_pyth_asked now dur prices ids : forall s s', rs_batch_pyth s now dur prices ids = Some s' -> asked s' = asked s.
Proof.
  induction ids as [|[i ts] ids IH]; intros s s' H; cbn [rs_batch_pyth] in H; [now injection H as <-|].
  destruct (prices !! i); [|now apply IH]. bnd H v Hv. destruct v; [|now apply IH]. bnd H x Hx. bnd H pr Hpr. bnd H s1 H1. apply IH in H. rewrite H.
  eapply set_all_asked; eauto.
Qed.
Lemma rate_set_kind now r a r' : rate_set now r a = Some r' -> rt_kind r' = rt_kind r /\ rt_contract r' = rt_contract r.
Proof.
  unfold rate_set. intros H. assert (E : exists x, r' = mkRate (rt_kind r) x now (rt_contract r)); [|destruct E as [x ->]; done].
  destruct (rt_kind r) as [| | |[| ]], a; try discriminate H;
    repeat match type of H with
      | mbind _ _ = Some _ => let y := fresh "y" in let Hy := fresh "Hy" in apply bind_Some in H as (y & Hy & H); try destruct y
      end; injection H as <-; eauto.
Qed.
Lemma oracle_asked c now a c' : ex_oracle c now a = Some c' -> asked (ex_rates c') = asked (ex_rates c).
Proof.
  unfold ex_oracle. intros H. bnd H s Hs. injection H as <-. cbn [ex_set_rates ex_rates]. destruct a as [t x|t x|decs pd|ids prices].
  - unfold rs_rate_callback in Hs. destruct (rs_rates (ex_rates c) !! t) as [r|] eqn:Hr; [|now injection Hs as <-].
    bnd Hs r' Hr'. injection Hs as <-. apply rate_set_kind in Hr' as [A B]. unfold asked. cbn [rs_set_rates rs_rates rs_degens rs_price_cfg rs_pyth_cfg].
    rewrite (fmap_insert_same (fun r => (rt_kind r, rt_contract r)) _ _ _ _ Hr); [done|]. now rewrite A, B.
  - unfold rs_degen_callback in Hs. bnd Hs d Hd. bnd Hs d' Hd'. injection Hs as <-. assert (E : exists pr, d' = degen_update d pr now).
    { unfold degen_set_price in Hd'. destruct (dg_src d), x; try discriminate Hd';
        repeat match type of Hd' with
        | mbind _ _ = Some _ => let y := fresh "y" in let Hy := fresh "Hy" in apply bind_Some in Hd' as (y & Hy & Hd'); try destruct y
        end; injection Hd' as <-; eauto. }
    destruct E as [pr ->]. now apply degen_asked.
  - unfold rs_batch_price_callback in Hs. bnd Hs cfg Hcfg. bnd Hs u Hu. eapply batch_prices_asked; eauto.
  - unfold rs_batch_pyth_callback in Hs. bnd Hs cfg Hcfg. eapply batch_pyth_asked; eauto.
Qed.

(** ** One event *)
Lemma governed_trans a b c : governed a b -> governed b c -> governed a c.
Proof. intros (A1 & B1 & C1) (A2 & B2 & C2). split; [congruence|]. split; [eapply params_trans; eauto|congruence]. Qed.
Lemma recredit_pools c e s t x c' : recredit c e s t x c' -> ex_pools c' = ex_pools c.
Proof. intros H. destruct H; done. Qed.
Lemma mft_params c id s r am c' x : ex_mft_transfer c id s r am = Some (c', x) -> params_kept c c'.
Proof.
  intros H. apply ex_mft_transfer_inv in H as (_ & _ & H). destruct (mft_pool_of id).
  - destruct H as (p & p' & Hp & _ & _ & Ht & ->). eapply params_insert; [exact Hp|reflexivity|eapply params_transfer; eauto].
  - destruct H as (sa & sa' & ra & ra' & _ & _ & _ & _ & _ & _ & ->). now apply params_same.
Qed.
Lemma happens_governed w ev now c c' : happens w ev now c c' -> (forall e x, ev = EvCall e x -> privileged x = false) -> governed c c'.
Proof.
  intros H Hp.
  destruct H as [|e x ps c' Hev He HW Hc H|e s x m ps c' He HW H|e s t x c' He H|i id s r x ret c' Hi' H|i e act s pid x fee ok ps c' He Hi' H|o c' H].
  - split; [done|]. split; [apply params_refl|done].
  - specialize (Hp e x Hev). pose proof (ex_call_cfg _ _ _ _ _ Hp H) as [A B]. split; [done|]. split; [eapply ex_call_params; eauto|congruence].
  - pose proof (ex_ft_on_transfer_settings _ _ _ _ _ _ _ H) as (A & B & _). split; [done|]. split; [eapply params_transfer_in; eauto|congruence].
  - pose proof (recredit_settings _ _ _ _ _ _ H) as (A & B & _). split; [done|]. split; [apply params_same; eapply recredit_pools; eauto|congruence].
  - apply ex_mft_resolve_inv in H as [[-> _]|(bal & _ & _ & _ & H)]; [split; [done|]; split; [apply params_refl|done]|].
    pose proof (ex_mft_transfer_settings _ _ _ _ _ _ _ H) as (A & B & _). split; [done|]. split; [eapply mft_params; eauto|congruence].
  - apply ex_callback_shadow_inv in H as [(_ & _ & -> & _)|[(_ & _ & _ & acc & acc1 & _ & _ & _ & ->)|(_ & acc & acc1 & _ & _ & _ & -> & _)]];
      (split; [done|]; split; [now apply params_same|done]).
  - split; [|split; [|eapply oracle_asked; eauto]]; unfold ex_oracle in H; bnd H s Hs; injection H as <-; [done|now apply params_same].
Qed.

(** ** Pausing *)
Lemma paused_call c e x : cf_running (ex_cfg c) = false -> stops_when_paused x = true -> ex_call c e x = None.
Proof.
  intros Hr Hx. destruct (ex_call c e x) as [[c' ps]|] eqn:H; [exfalso|done].
  assert (K : running c = Some tt).
  { destruct (is_settings x) eqn:Es; [destruct x; discriminate Es || discriminate Hx|].
    call_cases x Es H; try discriminate Hx; assumption. }
  unfold running in K. rewrite Hr in K. discriminate K.
Qed.

(** ** Only one's own calls lower one's deposits *)
Lemma held_accounts c c' a t : ex_accounts c' = ex_accounts c -> held_by c' a t = held_by c a t.
Proof. intros H. unfold held_by, ex_account. now rewrite H. Qed.
Lemma held_le_same c c' a t : ex_accounts c' = ex_accounts c -> held_by c a t <= held_by c' a t.
Proof. intros H. rewrite (held_accounts _ _ _ _ H). lia. Qed.
Lemma held_le_put c c1 b acc a t : String.eqb b a = false -> ex_accounts c1 = ex_accounts c -> held_by c a t <= held_by (ex_put c1 b acc) a t.
Proof. intros E H. rewrite held_by_put, E. now apply held_le_same. Qed.
Lemma held_le_put2 c c1 b acc bcc a t : ex_account c b = Some acc -> (forall u, ac_held acc u <= ac_held bcc u) ->
  held_by c a t <= held_by c1 a t -> held_by c a t <= held_by (ex_put c1 b bcc) a t.
Proof. intros Hb Hle H. rewrite held_by_put. destruct (String.eqb_spec b a) as [E|]; [subst a|done]. rewrite (held_by_account _ _ _ _ Hb). apply Hle. Qed.
Lemma held_le_put3 c c1 c2 b acc bcc a t : held_by c a t <= held_by c1 a t -> ex_accounts c2 = ex_accounts c1 ->
  ex_account c1 b = Some acc -> (forall u, ac_held acc u <= ac_held bcc u) -> held_by c a t <= held_by (ex_put c2 b bcc) a t.
Proof.
  intros H E Hb Hle. rewrite held_by_put. destruct (String.eqb_spec b a) as [Eb|]; [subst a|rewrite (held_accounts _ _ _ _ E); done].
  etrans; [exact H|]. rewrite (held_by_account _ _ _ _ Hb). apply Hle.
Qed.
Lemma held_le_new c b y a t : held_by c a t <= held_by (ex_put c b (ac_set_near (ex_account_or_new c b) y)) a t.
Proof.
  rewrite held_by_put. destruct (String.eqb_spec b a) as [E|]; [subst a|lia].
  change (ac_held (ac_set_near (ex_account_or_new c b) y) t) with (ac_held (ex_account_or_new c b) t).
  unfold held_by, ex_account_or_new. destruct (ex_account c b); cbn [default from_option]; [unfold Datatypes.id|]; lia.
Qed.
Lemma deposit_grows acc t x acc' : ac_disjoint acc -> ac_deposit acc t x = Some acc' -> forall u, ac_held acc u <= ac_held acc' u.
Proof. intros Hd H u. apply ac_deposit_spec in H as (_ & Hh & _); [|done]. rewrite Hh. lia. Qed.
Lemma deposit_all_grows ts : forall acc xs acc', ac_disjoint acc -> ac_deposit_all acc ts xs = Some acc' -> ac_disjoint acc' /\ forall u, ac_held acc u <= ac_held acc' u.
Proof.
  induction ts as [|t ts IH]; intros acc xs acc' Hd H; destruct xs as [|x xs]; cbn [ac_deposit_all] in H; try discriminate H; try (injection H as <-; split; [done|lia]).
  bnd H a1 H1. pose proof (deposit_grows _ _ _ _ Hd H1) as G. apply ac_deposit_spec in H1 as (Hf & _); [|done].
  apply IH in H as [A B]; [|apply Hf]. split; [done|]. intros u. etrans; [apply G|apply B].
Qed.
Lemma ex_call_others c e x c' ps a t :
  ex_wf (e_now e) c -> ex_call c e x = Some (c', ps) -> a <> e_caller e ->
  (match x with CWithdrawOwner _ _ _ => a <> cf_owner (ex_cfg c) | _ => True end) -> held_by c a t <= held_by c' a t.
Proof.
  intros Hwf H Hne Ho. destruct (is_settings x) eqn:Es; [apply settings_call in H as [(_ & _ & Ha & _) _]; [rewrite (held_accounts _ _ _ _ Ha); lia|done]|].
  assert (Eb : String.eqb (e_caller e) a = false) by (apply String.eqb_neq; congruence).
  call_cases x Es H; try (apply held_le_same; reflexivity); try (apply held_le_put; [exact Eb|reflexivity]).
  1-4: apply ex_execute_frame in Hx as (_ & _ & Ha & _); now apply held_le_put.
  1-2: eapply held_le_put2; [eassumption|eapply deposit_grows; [eapply ex_wf_account; eauto|eassumption]|now apply held_le_put].
  - destruct (String.eqb_spec (e_caller e) (cf_owner (ex_cfg c))) as [Eo|Eo].
    + rewrite held_by_put, <- Eo, Eb. now apply held_le_put.
    + eapply held_le_put2; [|eapply deposit_grows; [|eassumption]|now apply held_le_put].
      all: match goal with H : ex_account (ex_put _ _ _) _ = Some _ |- _ => rewrite ex_account_put, (proj2 (String.eqb_neq _ _) Eo) in H end; first [eassumption|eapply ex_wf_account; eauto].
  - set (v := ac_set_near va2 (ac_near va2 + e_freed e)) in *.
    assert (Hv : ac_disjoint v /\ forall u, ac_held v u = ac_held va u).
    { match goal with H : ex_account c victim = Some va |- _ => pose proof (ex_wf_account _ _ _ _ Hwf H) as Hd end.
      match goal with H : ac_update_shadow va _ _ _ = Some va1 |- _ => pose proof (update_shadow_held _ _ _ _ _ H) as (A1 & B1) end.
      match goal with H : (if ?b then ac_update_shadow va1 _ _ _ else Some va1) = Some va2 |- _ => destruct b; [pose proof (update_shadow_held _ _ _ _ _ H) as (A2 & B2)|injection H as <-] end.
      - split; [auto|]. intros u. change (ac_held va2 u = ac_held va u). now rewrite B2, B1.
      - split; [auto|]. exact B1. }
    destruct Hv as [Hvd Hvh].
    assert (G : held_by c a t <= held_by (ex_put c victim v) a t) by (eapply held_le_put2; [eassumption|intros u; rewrite Hvh; lia|lia]).
    eapply held_le_put3; [exact G|reflexivity|eassumption|]. eapply deposit_all_grows; [|eassumption].
    match goal with H : ex_account (ex_put c victim v) liquidator = Some la |- _ => rewrite ex_account_put in H; destruct (String.eqb victim liquidator); [injection H as <-; done|eapply ex_wf_account; eauto] end.
  - apply held_le_new.
  - apply held_le_new.
  - unfold held_by, ex_account. ex_cbn. rewrite lookup_delete_ne by congruence. lia.
  - eapply held_le_put2; [eassumption|eapply deposit_all_grows; [eapply ex_wf_account; eauto|eassumption]|now apply held_le_same].
  - apply held_le_put; [|reflexivity]. apply String.eqb_neq. congruence.
Qed.

(** ** What guardians cannot do *)
Lemma owners_refl c : owners_kept c c.
Proof. unfold owners_kept. cbv zeta. split; [done|]. split; [done|]. split; [done|]. split; [done|]. split; [eauto|]. split; [eauto|]. split; auto. Qed.
Lemma owners_trans a b c : owners_kept a b -> owners_kept b c -> owners_kept a c.
Proof.
  unfold owners_kept. cbv zeta. intros ((A1 & A2 & A3 & A4) & A5 & A6 & (A7 & A8 & A9) & A10 & A11 & A12 & A13) ((B1 & B2 & B3 & B4) & B5 & B6 & (B7 & B8 & B9) & B10 & B11 & B12 & B13).
  split; [split_and!; congruence|]. split; [auto|]. split; [auto|]. split; [split; [etransitivity; eauto|split; etransitivity; eauto]|].
  split; [intros t r Hr; destruct (A10 _ _ Hr) as (r1 & Hr1 & E); destruct (B10 _ _ Hr1) as (r2 & Hr2 & E2); exists r2; split; [done|congruence]|].
  split; [intros t r Hr; destruct (A11 _ _ Hr) as (r1 & Hr1 & E); destruct (B11 _ _ Hr1) as (r2 & Hr2 & E2); exists r2; split; [done|congruence]|].
  auto.
Qed.
Lemma asked_kept c c' : asked (ex_rates c') = asked (ex_rates c) -> 
  (forall t r, rs_rates (ex_rates c) !! t = Some r -> exists r', rs_rates (ex_rates c') !! t = Some r' /\ rt_contract r' = rt_contract r) /\
  (forall t d, rs_degens (ex_rates c) !! t = Some d -> exists d', rs_degens (ex_rates c') !! t = Some d' /\ dg_src d' = dg_src d) /\
  (forall p, rs_price_cfg (ex_rates c) = Some p -> rs_price_cfg (ex_rates c') = Some p) /\
  (forall p, rs_pyth_cfg (ex_rates c) = Some p -> rs_pyth_cfg (ex_rates c') = Some p).
Proof.
  unfold asked. intros E. injection E as E1 E2 E3 E4. split; [|split; [|split; intros; congruence]].
  - intros t r Hr. assert (K : ((fun r => (rt_kind r, rt_contract r)) <$> rs_rates (ex_rates c')) !! t = Some (rt_kind r, rt_contract r)) by (rewrite E1, lookup_fmap, Hr; done).
    rewrite lookup_fmap in K. destruct (rs_rates (ex_rates c') !! t) as [r'|] eqn:F; [|discriminate K]. injection K as _ K. eauto.
  - intros t r Hr. assert (K : (dg_src <$> rs_degens (ex_rates c')) !! t = Some (dg_src r)) by (rewrite E2, lookup_fmap, Hr; done).
    rewrite lookup_fmap in K. destruct (rs_degens (ex_rates c') !! t) as [r'|] eqn:F; [|discriminate K]. injection K as K. eauto.
Qed.
Lemma governed_owners c c' : governed c c' -> owners_kept c c'.
Proof.
  intros (E & _ & A). unfold owners_kept. cbv zeta. rewrite E. split; [done|]. split; [done|]. split; [done|]. split; [done|]. now apply asked_kept.
Qed.
Lemma wl_extend_grows d l : forall s s', wl_extend d s l = Some s' -> s ⊆ s'.
Proof.
  induction l as [|p l IH]; intros s s' H; cbn [wl_extend] in H; [now injection H as <-|]. 
  repeat match type of H with mbind _ _ = Some _ => let y := fresh "y" in let Hy := fresh "Hy" in apply bind_Some in H as (y & Hy & H) end.
  apply IH in H. set_solver.
Qed.
Lemma owners_cfg c k :
  (cf_owner k = cf_owner (ex_cfg c) /\ cf_guardians k = cf_guardians (ex_cfg c) /\ cf_wnear k = cf_wnear (ex_cfg c) /\ cf_admin_fee k = cf_admin_fee (ex_cfg c)) ->
  (cf_running k = true -> cf_running (ex_cfg c) = true) -> (forall pid x, cf_limits (ex_cfg c) !! pid = Some x -> cf_limits k !! pid = Some x) ->
  (el_tokens (cf_echo (ex_cfg c)) ⊆ el_tokens (cf_echo k) /\ el_senders (cf_echo (ex_cfg c)) ⊆ el_senders (cf_echo k) /\ el_secure (cf_echo (ex_cfg c)) ⊆ el_secure (cf_echo k)) ->
  owners_kept c (ex_upd c k).
Proof. intros A B C D. unfold owners_kept. cbv zeta. split; [exact A|]. split; [exact B|]. split; [exact C|]. split; [exact D|]. now apply asked_kept. Qed.
Lemma owners_same c c' : ex_cfg c' = ex_cfg c -> ex_rates c' = ex_rates c -> owners_kept c c'.
Proof.
  intros A B. unfold owners_kept. cbv zeta. rewrite A, B. split; [done|]. split; [done|]. split; [done|]. split; [done|].
  split; [eauto|]. split; [eauto|]. split; auto.
Qed.
Lemma owners_rates c s a : rate_admin (ex_rates c) a = Some s -> rate_admin_owner_only a = false -> owners_kept c (ex_set_rates c s).
Proof.
  intros H Ha. unfold owners_kept. cbv zeta. split; [done|]. split; [done|]. split; [done|]. split; [done|]. ex_cbn.
  destruct a; try discriminate Ha; cbn [rate_admin] in H.
  - unfold rs_register_rate in H. destruct (rs_rates (ex_rates c) !! t) eqn:E; [discriminate H|]. bnd H r Hr. injection H as <-. cbn [rs_set_rates rs_rates rs_degens rs_price_cfg rs_pyth_cfg].
    split; [|split; [eauto|auto]]. intros u q Hq. exists q. split; [|done]. rewrite lookup_insert_ne; [done|congruence].
  - unfold rs_update_extra in H. bnd H r Hr. destruct (rt_kind r); try discriminate H. bnd H u Hu. injection H as <-. cbn [rs_set_rates rs_rates rs_degens rs_price_cfg rs_pyth_cfg].
    split; [|split; [eauto|auto]]. intros v q Hq. destruct (decide (t = v)) as [->|]; [rewrite lookup_insert; eexists; split; [reflexivity|cbn; congruence]|].
    rewrite lookup_insert_ne by done. eauto.
  - unfold rs_register_degen in H. destruct (rs_degens (ex_rates c) !! t) eqn:E; [discriminate H|]. injection H as <-. cbn [rs_set_degens rs_rates rs_degens rs_price_cfg rs_pyth_cfg].
    split; [eauto|]. split; [|auto]. intros u q Hq. exists q. split; [|done]. rewrite lookup_insert_ne; [done|congruence].
  - unfold rs_register_config in H. bnd H u Hu. apply ensure_Some in Hu. injection H as <-. split; [|split; [|split]].
    1,2: destruct k; cbn; eauto.
    1,2: intros p Hp; destruct k; cbn in *; try done; rewrite Hp in Hu; discriminate Hu.
Qed.
Lemma others_owners c e x c' ps : ex_call c e x = Some (c', ps) -> e_caller e <> cf_owner (ex_cfg c) -> owners_kept c c'.
Proof.
  intros H Hne. destruct (privileged x) eqn:Hp; [|apply ex_call_cfg in H as [A B]; [now apply owners_same|done]].
  destruct (for_owner x) eqn:Ho; [exfalso; apply Hne; eapply owner_call_only; eauto|].
  destruct (is_settings x) eqn:Es; [|apply ex_call_settings in H as (A & B & _); [now apply owners_same|done]].
  destruct x; try discriminate Hp; try discriminate Ho; try discriminate Es; cbn [ex_call] in H; try (apply quiet_inv in H as [H ->]); open_call H.
  all: repeat match type of H with mbind _ _ = Some _ => let y := fresh "y" in let Hy := fresh "Hy" in apply bind_Some in H as (y & Hy & H) end.
  all: try (injection H as <-); try (apply owners_same; reflexivity).
  all: try (apply owners_cfg; [split_and!; reflexivity|auto; fail|auto; fail|split_and!; reflexivity]).
  - destruct (Bool.eqb (cf_running (ex_cfg c)) b); [injection H as <-; apply owners_refl|]. bnd H u Hu. injection H as <-.
    destruct b; [exfalso; apply Hne; apply ensure_Some in Hu; unfold is_owner in Hu; now apply String.eqb_eq in Hu|]. apply owners_cfg; done.
  - eapply owners_rates; [eassumption|]. destruct a; done.
  - apply ensure_Some in Hy1. destruct (has_limit c pid) eqn:E; [discriminate Hy1|]. apply owners_cfg; [split_and!; done|done| |split_and!; done].
    intros q z Hz. ex_cbn. cbn [cf_set_limits cf_limits]. rewrite lookup_insert_ne; [done|]. intros ->. unfold has_limit in E. rewrite Hz in E. discriminate E.
  - apply owners_cfg; [split_and!; done|done|done|]. apply wl_extend_grows in Hy0. destruct w; split_and!; done.
Qed.

(** ** Incoming tokens and callbacks only add to deposits, except for refunds of share transfers *)
Lemma transfer_adds c e s x m c' ps a t : ex_wf (e_now e) c -> ex_ft_on_transfer c e s x m = Some (c', ps) -> held_by c a t <= held_by c' a t.
Proof.
  intros Hwf H. unfold ex_ft_on_transfer in H. cbv zeta in H. grd H. grd H. destruct m as [|r l echo su rc skip|r l infos skip].
  - grd H. bnd H c1 Hd. injection H as <- _. apply ex_deposit_inv in Hd as (acc & acc' & Ha & _ & Hd & _ & ->).
    eapply held_le_put2; [exact Ha|eapply deposit_grows; [eapply ex_wf_account; eauto|exact Hd]|now apply held_le_same].
  - grd H. grd H. bnd H u Hu. bnd H d Hd. destruct d as [c1 outs]. grd H. injection H as <- _.
    apply ex_direct_frame in Hd as (_ & _ & Ha & _). now apply held_le_same.
  - bnd H c1 Hz. injection H as <- _.
    apply ex_hot_zap_inv in Hz as (acc & ts & c2 & outs & m & c3 & m' & acc' & _ & _ & Ha & _ & _ & _ & Hd & Hm & Hz & _ & Hl & _ & ->).
    apply ex_direct_frame in Hd as (_ & _ & Ea & _). apply ex_zap_loop_frame in Hz as (_ & _ & Eb & _).
    eapply held_le_put2; [exact Ha| |apply held_le_same; congruence].
    intros u. apply ac_deposit_list_spec in Hl as [_ Hh]; [|exact (ex_wf_account _ _ _ _ Hwf Ha)]. rewrite Hh.
    change (ac_held (ac_set_near acc (ac_near acc - e_grow e)) u) with (ac_held acc u). lia.
Qed.
Lemma recredit_adds c e s u x c' now a t : ex_wf now c -> recredit c e s u x c' -> held_by c a t <= held_by c' a t.
Proof.
  intros Hwf H. destruct H as [acc acc' Ha H|m _ _ H|acc _ _ H].
  - eapply held_le_put2; [exact Ha| |now apply held_le_same]. intros v.
    apply ac_check_deposit_spec in H as (_ & H & _); [|eapply ex_wf_account; eauto]. rewrite H. lia.
  - now apply held_le_same.
  - rewrite held_by_put. destruct (String.eqb_spec (cf_owner (ex_cfg c)) a) as [E|]; [subst a|lia].
    assert (K : held_by c (cf_owner (ex_cfg c)) t = ac_held (ex_account_or_new c (cf_owner (ex_cfg c))) t).
    { unfold held_by, ex_account_or_new. now destruct (ex_account c (cf_owner (ex_cfg c))). }
    rewrite K. eapply deposit_grows; [|exact H]. unfold ex_account_or_new.
    destruct (ex_account c (cf_owner (ex_cfg c))) eqn:E; [eapply ex_wf_account; eauto|apply ac_new_disjoint].
Qed.
Lemma mft_lowers c now id s r am c' x a t : ex_wf now c -> ex_mft_transfer c id s r am = Some (c', x) ->
  held_by c a t <= held_by c' a t \/ (a = s /\ id = t /\ mft_pool_of id = None /\ held_by c a t = held_by c' a t + x).
Proof.
  intros Hwf H. apply ex_mft_transfer_inv in H as (Hne & _ & H). destruct (mft_pool_of id) eqn:E.
  - destruct H as (p & p' & _ & _ & _ & _ & ->). left. now apply held_le_same.
  - destruct H as (sa & sa' & ra & ra' & Hs & Hr & Hw & Hd & _ & _ & ->).
    apply ac_withdraw_spec in Hw as (_ & Hw & _); [|eapply ex_wf_account; eauto]. apply ac_deposit_spec in Hd as (_ & Hd & _); [|eapply ex_wf_account; eauto].
    specialize (Hw t). specialize (Hd t). rewrite !held_by_put. destruct (String.eqb_spec r a) as [Er|].
    + left. subst a. rewrite (held_by_account _ _ _ _ Hr). lia.
    + destruct (String.eqb_spec s a) as [Es|]; [subst a|left; lia]. rewrite (held_by_account _ _ _ _ Hs).
      unfold only in Hw. destruct (String.eqb_spec id t); [right; auto|left; lia].
Qed.
Lemma happens_lowers w ev now c c' a t : ex_wf now c -> happens w ev now c c' -> held_by c' a t < held_by c a t ->
  (exists e x, ev = EvCall e x /\ e_caller e = a) \/
  (exists e u y z, ev = EvCall e (CWithdrawOwner u y z) /\ a = cf_owner (ex_cfg c) /\ trusted c (e_caller e)) \/
  (exists i s x, w_flights w !! i = Some (Leaving (PMft t s a x)) /\ mft_pool_of t = None /\ held_by c a t <= held_by c' a t + x).
Proof.
  intros Hwf H Hlt.
  destruct H as [|e x ps c' Hev He HW Hc H|e s x m ps c' He HW H|e s u x c' He H|i id s r x ret c' Hi' H|i e act s pid x fee ok ps c' He Hi' H|o c' H]; [lia|..].
  - destruct (String.eqb_spec (e_caller e) a) as [E|E]; [left; eauto|]. right; left. subst now.
    destruct (match x with CWithdrawOwner _ _ _ => bool_decide (a = cf_owner (ex_cfg c)) | _ => false end) eqn:K.
    + destruct x; try discriminate K. apply bool_decide_eq_true in K. do 4 eexists. split; [exact Hev|]. split; [done|]. eapply privileged_call; [|exact H]; reflexivity.
    + exfalso. apply (ex_call_others _ _ _ _ _ a t Hwf) in H; [lia|congruence|]. destruct x; try done. now apply bool_decide_eq_false in K.
  - subst now. apply (transfer_adds _ _ _ _ _ _ _ a t Hwf) in H. lia.
  - apply (recredit_adds _ _ _ _ _ _ _ a t Hwf) in H. lia.
  - right; right. apply ex_mft_resolve_inv in H as [[-> _]|(bal & _ & _ & _ & H)]; [lia|].
    destruct (mft_lowers _ _ _ _ _ _ _ _ a t Hwf H) as [K|(-> & -> & Hn & K)]; [lia|]. exists i, s, x. split; [done|]. split; [done|].
    destruct ret; lia.
  - exfalso. assert (held_by c a t <= held_by c' a t); [|lia].
    apply ex_callback_shadow_inv in H as [(_ & _ & -> & _)|[(_ & _ & _ & acc & acc1 & Ha & Hu & _ & ->)|(_ & acc & acc1 & Ha & Hu & _ & -> & _)]]; [lia|..].
    + eapply held_le_put2; [exact Ha| |now apply held_le_same]. apply update_shadow_held in Hu as [_ Hu]. intros v.
      change (ac_held acc v <= ac_held acc1 v). rewrite Hu. lia.
    + eapply held_le_put2; [exact Ha| |now apply held_le_same]. intros v.
      destruct act; [apply update_shadow_held in Hu as [_ Hu]; rewrite Hu; lia| |apply update_shadow_held in Hu as [_ Hu]; rewrite Hu; lia|].
      all: injection Hu as ->; lia.
  - exfalso. unfold ex_oracle in H; bnd H st Hs; injection H as <-. assert (held_by c a t <= held_by (ex_set_rates c st) a t) by now apply held_le_same. lia.
Qed.

Lemma happens_cases w ev now c c' : happens w ev now c c' ->
  (exists e x ps, ev = EvCall e x /\ privileged x = true /\ e_now e = now /\ ex_call c e x = Some (c', ps)) \/ governed c c'.
Proof.
  intros H. destruct H as [|e x ps c' Hev He HW Hc H|e s x m ps c' He HW H|e s u x c' He H|i id s r x ret c' Hi' H|i e act s pid x fee ok ps c' He Hi' H|o c' H].
  2: { destruct (privileged x) eqn:Hp; [left; exists e, x, ps; auto|right]. eapply (happens_governed w ev); [eapply h_call; eauto|]. intros e' x' E. congruence. }
  all: right; eapply (happens_governed w (EvArrive "" "" 0 MsgDeposit) now); [|intros; discriminate].
  - apply h_nothing.
  - eapply h_transfer; eauto.
  - eapply h_recredit; eauto.
  - eapply h_resolve; eauto.
  - eapply h_shadow; eauto.
  - eapply h_oracle; eauto.
Qed.
Lemma resumes_call c e x c' ps : ex_call c e x = Some (c', ps) -> cf_running (ex_cfg c) = false -> cf_running (ex_cfg c') = true ->
  x = CChangeState true /\ e_caller e = cf_owner (ex_cfg c).
Proof.
  intros H H0 H1. assert (Ho : e_caller e = cf_owner (ex_cfg c)).
  { destruct (decide (e_caller e = cf_owner (ex_cfg c))) as [|Hne]; [done|exfalso]. apply others_owners in H as (_ & Hr & _); [|done]. rewrite (Hr H1) in H0. discriminate H0. }
  split; [|done].
  destruct (is_settings x) eqn:Es; [|apply ex_call_settings in H as (A & B & _); [congruence|done]].
  destruct x; try discriminate Es; cbn [ex_call] in H; try (apply quiet_inv in H as [H ->]); open_call H.
  all: repeat match type of H with mbind _ _ = Some _ => let y := fresh "y" in let Hy := fresh "Hy" in apply bind_Some in H as (y & Hy & H) end.
  all: try (injection H as <-; exfalso; cbn in H1; congruence).
  destruct b; [done|]. destruct (Bool.eqb _ _); [injection H as <-; congruence|]. injection H as <-. discriminate H1.
Qed.

(** ** Pools while paused *)
Lemma still_refl c : pools_still c c.
Proof. split; [done|]. intros pid p H. exists p. auto. Qed.
Lemma still_same c c' : ex_pools c' = ex_pools c -> pools_still c c'.
Proof. intros E. unfold pools_still, ex_pool. rewrite E. apply (still_refl c). Qed.
Lemma still_trans a b c : pools_still a b -> pools_still b c -> pools_still a c.
Proof.
  intros [L H] [L' H']. split; [congruence|]. intros pid p Hp. destruct (H _ _ Hp) as (p1 & Hp1 & A & B). destruct (H' _ _ Hp1) as (p2 & Hp2 & C & D).
  exists p2. split; [done|]. split; [intros t; now rewrite C|congruence].
Qed.
Lemma mft_still c id s r am c' x : ex_mft_transfer c id s r am = Some (c', x) -> pools_still c c'.
Proof.
  intros H. apply ex_mft_transfer_inv in H as (_ & _ & H). destruct (mft_pool_of id).
  - destruct H as (p & p' & Hp & _ & _ & Ht & ->). split; [apply insert_length|]. intros q z Hz. unfold ex_pool in *. cbn [ex_put_pool ex_pools ex_set_pools].
    destruct (decide (N.to_nat n = N.to_nat q)) as [E|E]; [|rewrite list_lookup_insert_ne by done; exists z; auto].
    rewrite E in *. rewrite list_lookup_insert by (eapply lookup_lt_Some; eauto). exists p'. split; [done|]. assert (z = p) as -> by congruence.
    split; [now apply pl_transfer_any in Ht as (_ & Ht & _)|].
    destruct p as [k|k]; cbn [pl_share_transfer] in Ht; apply fmap_Some in Ht as (k' & Ht & ->).
    + apply sp_transfer_inv in Ht as (b & bo & _ & _ & _ & _ & ->). done.
    + apply st_transfer_inv in Ht as (b & bo & _ & _ & _ & _ & ->). done.
  - destruct H as (sa & sa' & ra & ra' & _ & _ & _ & _ & _ & _ & ->). now apply still_same.
Qed.
Lemma happens_still w ev now c c' :
  ex_wf now c -> happens w ev now c c' -> cf_running (ex_cfg c) = false ->
  (match ev with EvCall e _ => ~ trusted c (e_caller e) /\ e_caller e <> cf_burrow (ex_cfg c) | _ => True end) ->
  ex_cfg c' = ex_cfg c /\ pools_still c c'.
Proof.
  intros Hwf H Hr Hby. split.
  - pose proof H as H'. apply happens_cases in H' as [(e & x & ps & -> & Hp & _ & H')|(E & _)]; [|done]. exfalso. destruct Hby as [Hby _]. apply Hby. eapply privileged_call; eauto.
  - destruct H as [|e x ps c' Hev He HW Hc H|e s x m ps c' He HW H|e s u x c' He H|i id s r x ret c' Hi' H|i e act s pid x fee ok ps c' He Hi' H|o c' H].
    + apply still_refl.
    + subst ev. destruct (stops_when_paused x) eqn:Ex; [rewrite (paused_call _ _ _ Hr Ex) in H; discriminate H|].
      destruct (privileged x) eqn:Ep; [exfalso; destruct Hby as [Hby _]; apply Hby; eapply privileged_call; eauto|].
      destruct x; try discriminate Ep; try discriminate Ex; cbn [ex_call] in H.
      * apply ex_burrow_liquidation_inv in H as (? & ? & ? & ? & ? & ? & ? & ? & ? & ? & ? & _ & K & _). now destruct Hby.
      * apply (settings_call c e (CSyncTwap pid) c' ps) in H as [(_ & Hp & _) _]; [now apply still_same|done].
    + exfalso. unfold ex_ft_on_transfer in H. cbv zeta in H. grd H. grd H. unfold running in G0. rewrite Hr in G0. discriminate G0.
    + apply still_same. eapply recredit_pools; eauto.
    + apply ex_mft_resolve_inv in H as [[-> _]|(bal & _ & _ & _ & H)]; [apply still_refl|]. eapply mft_still; eauto.
    + apply still_same. apply ex_callback_shadow_inv in H as [(_ & _ & -> & _)|[(_ & _ & _ & acc & acc1 & _ & _ & _ & ->)|(_ & acc & acc1 & _ & _ & _ & -> & _)]]; done.
    + apply still_same. unfold ex_oracle in H; bnd H st Hs; injection H as <-; done.
Qed.
