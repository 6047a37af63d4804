(** * C58 whose pool shares can fall *)
From Verif Require Import PropSimple PropStable.
From Verif Require Import Base BaseLemmas SimplePool SimplePoolProofs SpecSimple SimplePoolInv StableMath StablePool
  SpecStable StablePoolProofs StablePoolInv Rates Echo Twap Account Pool Exchange SpecExchange AccountProofs PoolFacts
  ExchangeProofs ExchangeInv ExchangeEffect ExchangeFrames SpecWorld WorldProofs ExExample PropWorld SpecSwap SwapProofs PropSwap
  SpecHistory HistoryProofs PropCalls PropHistory PropShares SpecAccess AccessProofs FrozenProofs PropAccess.

(** Nobody but [s] loses shares. *)
Definition spares (s : AccountId) (c c' : Exchange) : Prop := forall pid a, a <> s -> shares_at c pid a <= shares_at c' pid a.
Lemma spares_same s c c' : ex_pools c' = ex_pools c -> spares s c c'.
Proof. intros H pid a _. rewrite (shares_same _ _ _ _ H). lia. Qed.
Lemma spares_pools s c c1 c' : ex_pools c' = ex_pools c1 -> spares s c c1 -> spares s c c'.
Proof. intros H K pid a Ha. rewrite (shares_same _ _ _ _ H). now apply K. Qed.
Lemma spares_put s c pid p p' x : ex_pool c pid = Some p -> (forall h, pl_share_of p h <= pl_share_of p' h + only s h x) -> spares s c (ex_put_pool c pid p').
Proof.
  intros Hp H q a Ha. rewrite shares_put by eauto. destruct (N.eqb_spec pid q) as [<-|]; [|lia]. rewrite (shares_pool _ _ _ _ Hp).
  specialize (H a). unfold only in H. destruct (String.eqb_spec s a); [congruence|lia].
Qed.
Lemma spares_grow s c pid p p' : ex_pool c pid = Some p -> (forall h, pl_share_of p h <= pl_share_of p' h) -> spares s c (ex_put_pool c pid p').
Proof. intros Hp H. apply (spares_put s c pid p p' 0 Hp). intros h. specialize (H h). lia. Qed.
Lemma spares_swaps s c c' : swap_frame c c' -> spares s c c'.
Proof. intros H pid a _. now apply kept_swaps. Qed.
Lemma spares_append s c c' p : ex_pools c' = ex_pools c ++ [p] -> spares s c c'.
Proof.
  intros H pid a _. unfold shares_at, ex_pool. rewrite H. destruct (ex_pools c !! N.to_nat pid) as [q|] eqn:E; [|lia].
  rewrite (lookup_app_l_Some _ _ _ _ E). lia.
Qed.
Lemma ex_call_spares c e x c' ps : ex_wf (e_now e) c -> e_now e < 2 ^ 64 -> ex_call c e x = Some (c', ps) ->
  match x with
  | CRemoveFeeLiquidity _ _ _ => spares (ex_self c) c c'
  | CLiquidation _ v _ _ _ => spares v c c'
  | _ => spares (e_caller e) c c'
  end.
Proof.
  intros Hwf HW H. destruct (is_settings x) eqn:Es; [apply settings_call in H as [(_ & Hp & _) _]; [destruct x; try discriminate Es; now apply spares_same|done]|].
  destruct (match x with CLiquidation _ _ _ _ _ => true | _ => false end) eqn:El.
  { destruct x; try discriminate El. cbn [ex_call] in H. pose proof (liquidation_shadows _ _ _ _ _ _ _ _ _ Hwf H) as (pid & _ & _ & _ & _ & Hs & _).
    intros q a Ha. specialize (Hs q a). unfold only in Hs. destruct (q =? pid); [|lia]. destruct (String.eqb_spec victim a); [congruence|lia]. }
  destruct (match x with CDonateShare _ _ _ => true | _ => false end) eqn:Ed.
  { destruct x; try discriminate Ed. cbn [ex_call] in H.
    apply ex_donate_share_inv in H as (p & x & p1 & p2 & _ & _ & Hp & Hx & _ & Ht & Hu & Hc).
    apply pl_transfer_any in Ht as (_ & _ & Hs1).
    assert (H2 : forall h, pl_share_of p2 h = pl_share_of p1 h).
    { destruct unregister; [|injection Hu as <-; done]. apply (pl_unregister_spec p1 no_rates 0) in Hu. tauto. }
    assert (K : spares (e_caller e) c (ex_put_pool c pid p2)).
    { eapply spares_put; [exact Hp|]. intros h. rewrite H2. specialize (Hs1 h). instantiate (1 := x). lia. }
    destruct Hc as [[-> _]|(acc & _ & _ & _ & ->)]; [done|]. eapply spares_pools; [reflexivity|exact K]. }
  destruct (match x with CShadow _ _ _ => true | _ => false end) eqn:Eh.
  { destruct x; try discriminate Eh. cbn [ex_call] in H.
    apply ex_shadow_action_inv in H as (acc & p & mx & y & _ & _ & _ & _ & _ & _ & _ & [(_ & acc' & qs & _ & _ & _ & -> & _)|(_ & -> & _)]); now apply spares_same. }
  call_cases x Es H; try discriminate El; try discriminate Ed; try discriminate Eh; try (apply spares_same; reflexivity).
  all: try match goal with H : ex_pool _ _ = Some ?p |- _ => pose proof (pl_reachable_wf _ _ (ex_wf_pool _ _ _ _ Hwf H)) as Hpw end.
  1-2: eapply spares_append; reflexivity.
  1: apply ex_execute_moved in Hx as (_ & Hs & _); [|done..|eapply ex_wf_account; eauto]; exact (spares_swaps _ _ _ Hs).
  1: match goal with H : va_take _ _ _ = Some _ |- _ => apply va_take_spec in H as (_ & Hv & _); [|eapply ex_wf_account; eauto|apply ac_new_disjoint] end;
     apply ex_execute_moved in Hx as (_ & Hs & _); [|done|done|apply Hv]; exact (spares_swaps _ _ _ Hs).
  1-2: apply ex_execute_moved in Hx as (_ & Hs & _); [|done..|eapply ex_wf_account; eauto]; exact (spares_swaps _ _ _ Hs).
  - apply (spares_pools _ c (ex_put_pool c pid p')); [reflexivity|]. eapply spares_grow; [eassumption|].
    match goal with H : pl_add_liquidity _ _ _ _ = Some _ |- _ => apply (pl_add_spec _ no_rates 0) in H as (_ & _ & _ & _ & _ & _ & Hs); [|done] end.
    intros h. rewrite Hs. lia.
  - apply (spares_pools _ c (ex_put_pool c pid p')); [reflexivity|]. eapply spares_grow; [eassumption|].
    match goal with H : pl_add_stable_liquidity _ _ _ _ _ _ _ _ = Some _ |- _ => apply pl_add_stable_spec in H as (_ & _ & _ & _ & _ & _ & Hs); done end.
  - apply (spares_pools _ c (ex_put_pool c pid p')); [reflexivity|]. eapply spares_put; [eassumption|].
    match goal with H : pl_remove_liquidity _ _ _ _ _ = Some _ |- _ => apply (pl_remove_spec _ no_rates 0) in H as (_ & _ & _ & _ & Hs); [|done] end.
    intros h. rewrite <- (Hs h). apply N.le_refl.
  - apply (spares_pools _ c (ex_put_pool c pid p')); [reflexivity|]. eapply spares_put; [eassumption|].
    match goal with H : pl_remove_by_tokens _ _ _ _ _ _ _ _ = Some _ |- _ => apply pl_remove_tokens_spec in H as (_ & _ & _ & _ & _ & Hs & _); done end.
  - eapply spares_grow; [eassumption|].
    match goal with H : pl_share_register _ _ = Some _ |- _ => apply (pl_register_spec _ no_rates 0) in H as (_ & _ & Hs) end. intros h. rewrite Hs. lia.
  - eapply spares_grow; [eassumption|].
    match goal with H : pl_share_unregister _ _ = Some _ |- _ => apply (pl_unregister_spec _ no_rates 0) in H as (_ & _ & _ & Hs) end. intros h. rewrite Hs. lia.
  - match goal with H : pl_share_transfer _ _ _ _ = Some _ |- _ => apply pl_transfer_any in H as (_ & _ & Ht') end.
    eapply spares_put; [eassumption|]. intros h. specialize (Ht' h). instantiate (1 := amount). lia.
  - match goal with H : pl_share_transfer _ _ _ _ = Some _ |- _ => apply pl_transfer_any in H as (_ & _ & Ht') end.
    eapply spares_put; [eassumption|]. intros h. specialize (Ht' h). match type of Ht' with _ + only _ _ ?y = _ => instantiate (1 := y) end. lia.
  - eapply spares_grow; [eassumption|]. apply N.ltb_lt in G0. destruct (pl_fee_spec p no_rates 0 _ G0) as (_ & _ & Hs). intros h. rewrite Hs. lia.
  - match goal with H : pl_remove_liquidity _ _ _ _ _ = Some _ |- _ => apply (pl_remove_spec _ no_rates 0) in H as (_ & _ & _ & _ & Hs); [|done] end.
    apply (spares_pools _ c (ex_put_pool c pid p')); [reflexivity|]. eapply spares_put; [eassumption|]. intros h. rewrite <- (Hs h). apply N.le_refl.
  - eapply spares_grow; [eassumption|]. apply pl_ramp_spec in Hp0 as (_ & _ & Hs). intros h. rewrite Hs. lia.
  - eapply spares_grow; [eassumption|]. apply pl_stop_ramp_spec in Hp0 as (_ & _ & Hs). intros h. rewrite Hs. lia.
Qed.
Lemma happens_lowers_shares w ev now c c' pid a : ex_wf now c -> happens w ev now c c' -> shares_at c' pid a < shares_at c pid a ->
  (exists e x, ev = EvCall e x /\ e_caller e = a) \/
  (exists e q sh mins, ev = EvCall e (CRemoveFeeLiquidity q sh mins) /\ a = ex_self c /\ trusted c (e_caller e)) \/
  (exists e l sid x mins, ev = EvCall e (CLiquidation l a sid x mins) /\ e_caller e = cf_burrow (ex_cfg c) /\ shadow_id_to_pool_id sid = Some pid /\
     x <= burrow_at c pid a /\ shares_at c' pid a + x = shares_at c pid a) \/
  (exists i id s x, w_flights w !! i = Some (Leaving (PMft id s a x)) /\ mft_pool_of id = Some pid /\ shares_at c pid a <= shares_at c' pid a + x).
Proof.
  intros Hwf H Hlt.
  destruct H as [|e x ps c' Hev He HW Hc H|e s x m ps c' He HW H|e s u x c' He H|i id s r x ret c' Hi' H|i e act s q x fee ok ps c' He Hi' H|o c' H]; [lia|..].
  - subst now. destruct (String.eqb_spec (e_caller e) a) as [E|E]; [left; eauto|]. right. pose proof (ex_call_spares _ _ _ _ _ Hwf HW H) as K.
    destruct x; try (exfalso; specialize (K pid a (not_eq_sym E)); lia).
    + right; left. pose proof H as H'. apply C34_liquidation in H' as (q & p & out & Hcal & Hid & _ & _ & Hb & _ & _ & _ & _ & Hs & _); [|exact Hwf].
      specialize (Hs pid a). unfold only in Hs. destruct (N.eqb_spec pid q) as [->|]; [|lia]. destruct (String.eqb_spec victim a) as [->|]; [|lia].
      do 5 eexists. split; [exact Hev|]. split; [exact Hcal|]. split; [exact Hid|]. split; [exact Hb|lia].
    + left. do 4 eexists. split; [exact Hev|]. split; [|eapply privileged_call; [|exact H]; reflexivity].
      destruct (decide (a = ex_self c)) as [Ea|Ea]; [done|]. specialize (K pid a Ea). lia.
  - subst now. apply (kept_transfer _ _ _ _ _ _ _ Hwf HW) with (pid := pid) (a := a) in H. lia.
  - exfalso. assert (E : ex_pools c' = ex_pools c) by (eapply recredit_pools; eauto). rewrite (shares_same _ _ _ _ E) in Hlt. lia.
  - right; right; right. apply ex_mft_resolve_inv in H as [[-> _]|(bal & _ & _ & _ & H)]; [lia|].
    apply ex_mft_transfer_inv in H as (Hne & _ & H). destruct (mft_pool_of id) as [q|] eqn:Eid.
    + destruct H as (p & p' & Hp & _ & _ & Ht & ->). apply pl_transfer_any in Ht as (_ & _ & Ht). rewrite shares_put in * by eauto.
      destruct (N.eqb_spec q pid) as [->|]; [|lia]. rewrite (shares_pool _ _ _ _ Hp) in *. specialize (Ht a). unfold only in Ht.
      destruct (String.eqb_spec r a) as [->|]; [|lia]. do 4 eexists. split; [exact Hi'|]. split; [exact Eid|].
      destruct ret; repeat match type of Ht with context [if ?b then _ else _] => destruct b end; lia.
    + destruct H as (sa & sa' & ra & ra' & _ & _ & _ & _ & _ & _ & ->). exfalso.
      match type of Hlt with shares_at ?c1 _ _ < _ => assert (E : ex_pools c1 = ex_pools c) by reflexivity; rewrite (shares_same _ _ _ _ E) in Hlt end. lia.
  - exfalso. assert (E : ex_pools c' = ex_pools c); [|rewrite (shares_same _ _ _ _ E) in Hlt; lia].
    apply ex_callback_shadow_inv in H as [(_ & _ & -> & _)|[(_ & _ & _ & acc & acc1 & _ & _ & _ & ->)|(_ & acc & acc1 & _ & _ & _ & -> & _)]]; reflexivity.
  - exfalso. assert (E : ex_pools c' = ex_pools c); [|rewrite (shares_same _ _ _ _ E) in Hlt; lia].
    unfold ex_oracle in H; bnd H st Hs; now injection H as <-.
Qed.

(** ** C58 *)
(** The pool shares of an account fall in an event only if the account makes the call; or they are the exchange's own and
    a trusted account removes them; or the lending contract liquidates shares the account staked there, then exactly those;
    or the unused part of a transfer with notification the account received is refunded. *)
Theorem C58_shares w ev w' pid a :
  w_ok w -> w_step w ev = Some w' -> shares_at (w_ex w') pid a < shares_at (w_ex w) pid a ->
  (exists e x, ev = EvCall e x /\ e_caller e = a) \/
  (exists e q sh mins, ev = EvCall e (CRemoveFeeLiquidity q sh mins) /\ a = ex_self (w_ex w) /\ trusted (w_ex w) (e_caller e)) \/
  (exists e l sid x mins, ev = EvCall e (CLiquidation l a sid x mins) /\ e_caller e = cf_burrow (ex_cfg (w_ex w)) /\
     shadow_id_to_pool_id sid = Some pid /\ x <= burrow_at (w_ex w) pid a /\ shares_at (w_ex w') pid a + x = shares_at (w_ex w) pid a) \/
  (exists i id s x, w_flights w !! i = Some (Leaving (PMft id s a x)) /\ mft_pool_of id = Some pid /\
     shares_at (w_ex w) pid a <= shares_at (w_ex w') pid a + x).
Proof.
  intros Hok Hs Hlt. destruct (w_step_happens _ _ _ Hs) as [Hn Hh]. eapply happens_lowers_shares; eauto. eapply ex_wf_later; [exact Hn|apply Hok].
Qed.
Print Assumptions C58_shares.
(** All four happen: al removes; a guardian removes shares given to the exchange; the lending contract liquidates al;
    al takes back what bo did not use. *)
Definition share_falls (w : World) (ev : Event) (a : AccountId) (pid x : N) : bool :=
  match w_step w ev with Some w' => shares_at (w_ex w') pid a + x =? shares_at (w_ex w) pid a | None => false end.
Definition C58_events : list Event :=
  [ EvCall (env 118 "own" 1) (CExtendGuardians ["gu"]);
    EvCall (env 119 "al" 1) (CDonateShare 0 (Some (10 ^ 20)) false);
    EvCall (env 119 "bo" (10 ^ 24)) (CMftRegister ":0" "bo");
    EvCall (env 120 "al" 1) (CMftTransferCall ":0" "bo" (Some 1000)) ].
Definition w_58 : World := default w_rich (w_run w_rich C58_events).
Example C58_ex :
  w_run w_rich C58_events = Some w_58 /\ share_falls w_58 (EvCall (env 121 "al" 1) (CRemoveLiquidity 0 (10 ^ 20) [1; 1])) "al" 0 (10 ^ 20) = true /\
  share_falls w_58 (EvCall (env 121 "gu" 1) (CRemoveFeeLiquidity 0 (10 ^ 20) [1; 1])) "ref" 0 (10 ^ 20) = true /\
  share_falls w_lent (EvCall (env 122 "bur" 0) (CLiquidation "bo" "al" "shadow_ref_v1-0" (al_shares / 2) [1; 1])) "al" 0 (al_shares / 2) = true /\
  share_falls w_58 (EvMftResolve (w_next w_rich + 1) (env 121 "ref" 0) (Some 300)) "bo" 0 300 = true.
Proof. split; [apply run_default; vm_compute; reflexivity|]. split_and!; vm_compute; reflexivity. Qed.
