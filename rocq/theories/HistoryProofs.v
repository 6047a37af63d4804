(** * What can happen to the exchange in one event; shares, shadows and storage along histories *)
From Verif Require Import Base BaseLemmas SimplePool SimplePoolProofs SpecSimple SimplePoolInv StableMath StablePool
  SpecStable StablePoolProofs StablePoolInv Rates Echo Twap Account Pool Exchange SpecExchange AccountProofs PoolFacts
  ExchangeProofs ExchangeInv ExchangeEffect ExchangeFrames SpecWorld WorldProofs SpecSwap SwapProofs SpecHistory.

(** ** One event as seen by the exchange *)
Inductive happens (w : World) (ev : Event) (now : N) (c : Exchange) : Exchange -> Prop :=
| h_nothing : happens w ev now c c
| h_call e x ps c' : ev = EvCall e x -> e_now e = now -> now < 2 ^ 64 -> e_caller e <> ex_self c -> ex_call c e x = Some (c', ps) -> happens w ev now c c'
| h_transfer e s x m ps c' : e_now e = now -> now < 2 ^ 64 -> ex_ft_on_transfer c e s x m = Some (c', ps) -> happens w ev now c c'
| h_recredit e s t x c' : e_now e = now -> recredit c e s t x c' -> happens w ev now c c'
| h_resolve i id s r x ret c' : w_flights w !! i = Some (Leaving (PMft id s r x)) -> ex_mft_resolve c id s r x ret = Some c' -> happens w ev now c c'
| h_shadow i e act s pid x fee ok ps c' : e_now e = now -> w_flights w !! i = Some (Leaving (PShadow act s pid x fee)) ->
    ex_callback_shadow c e act s pid x fee ok = Some (c', ps) -> happens w ev now c c'
| h_oracle a c' : ex_oracle c now a = Some c' -> happens w ev now c c'.
Lemma w_step_happens w ev w' : w_step w ev = Some w' -> w_now w <= w_now w' /\ happens w ev (w_now w') (w_ex w) (w_ex w').
Proof.
  intros H. unfold w_step in H. cbv zeta in H. destruct ev.
  - bnd H u Hu. apply next_time_inv in Hu as [Hn HW]. bnd H u' Hu'. apply ensure_Some in Hu'. bool_inv. bnd H q Hq'. destruct q as [c' ps].
    injection H as <-. destruct (w_queue_ex w c' (w_hold w) (w_flights w) ps (e_now e)) as (-> & -> & _). split; [done|]. eapply h_call; eauto.
  - bnd H u Hu. injection H as <-. split; [cbn; lia|apply h_nothing].
  - bnd H u Hu. apply next_time_inv in Hu as [Hn HW]. bnd H f Hf. destruct f as [t s x msg| |]; try discriminate H.
    bnd H u' Hu'. destruct (ex_ft_on_transfer _ _ _ _ _) as [[c' ps]|] eqn:E.
    + injection H as <-. destruct (w_queue_ex w c' (w_hold w) (delete id (w_flights w)) ps (e_now e)) as (-> & -> & _). split; [done|]. eapply h_transfer; eauto.
    + injection H as <-. split; [done|apply h_nothing].
  - bnd H u Hu. injection H as <-. split; [cbn; lia|apply h_nothing].
  - bnd H f Hf. destruct f as [|p|]; try discriminate H.
    destruct p; try discriminate H; bnd H u Hu; injection H as <-; (split; [cbn; lia|apply h_nothing]).
  - bnd H u Hu. apply next_time_inv in Hu as [Hn HW]. bnd H f Hf. destruct f as [| |p ok]; try discriminate H.
    destruct p; try discriminate H; injection H as <-; cbn [w_ex w_now]; (split; [done|]).
    + destruct (ex_callback_withdraw _ _ _ _ _ _) eqn:E; cbn; [|apply h_nothing]. unfold ex_callback_withdraw in E. destruct ok; [injection E as <-; apply h_nothing|].
      apply ex_handle_fail_inv in E. eapply h_recredit; eauto.
    + destruct (ex_callback_withdraw _ _ _ _ _ _) eqn:E; cbn; [|apply h_nothing]. unfold ex_callback_withdraw in E. destruct ok; [injection E as <-; apply h_nothing|].
      apply ex_handle_fail_inv in E. eapply h_recredit; eauto.
    + destruct (ex_callback_near _ _ _ _ _) as [q|] eqn:E; cbn; [|apply h_nothing]. unfold ex_callback_near in E. destruct ok; [injection E as <-; apply h_nothing|].
      bnd E t Ht. bnd E c1 H1. injection E as <-. cbn [fst]. apply ex_handle_fail_inv in H1. eapply h_recredit; eauto.
  - bnd H u Hu. apply next_time_inv in Hu as [Hn HW]. bnd H f Hf. destruct f as [|p|]; try discriminate H.
    destruct p; try discriminate H; injection H as <-; cbn [w_ex w_now]; (split; [done|]).
    destruct (ex_mft_resolve _ _ _ _ _ _) eqn:E; cbn; [|apply h_nothing]. eapply h_resolve; eauto.
  - bnd H u Hu. apply next_time_inv in Hu as [Hn HW]. bnd H f Hf. destruct f as [|p|]; try discriminate H.
    destruct p; try discriminate H; injection H as <-; cbn [w_ex w_now]; (split; [done|]).
    destruct (ex_callback_shadow _ _ _ _ _ _ _ _) as [[c' ps]|] eqn:E; cbn; [|apply h_nothing]. eapply h_shadow; eauto.
  - bnd H u Hu. apply next_time_inv in Hu as [Hn HW]. bnd H c' Hc'. injection H as <-. split; [done|]. eapply h_oracle; eauto.
  - bnd H u Hu. apply next_time_inv in Hu as [Hn HW]. bnd H q Hq'. destruct q as [c' ps].
    injection H as <-. destruct (w_queue_ex w c' (w_hold w) (w_flights w) ps (e_now e)) as (-> & -> & _). split; [done|]. eapply h_transfer; eauto.
  - injection H as <-. split; [cbn; lia|apply h_nothing].
Qed.

(** ** Accounts are saved with their storage paid *)
Definition saved (c c' : Exchange) : Prop :=
  forall a, ex_account c' a = ex_account c a \/ covered_at c' a \/ a = cf_owner (ex_cfg c).
Lemma saved_refl c : saved c c. Proof. intros a. auto. Qed.
Lemma saved_accounts c c' : ex_accounts c' = ex_accounts c -> saved c c'.
Proof. intros H a. left. unfold ex_account. now rewrite H. Qed.
Lemma saved_put c c1 a acc : ex_accounts c1 = ex_accounts c -> ac_covered acc \/ a = cf_owner (ex_cfg c) -> saved c (ex_put c1 a acc).
Proof.
  intros H Ha b. unfold covered_at. rewrite ex_account_put. destruct (String.eqb_spec a b) as [<-|]; [right; destruct Ha; auto|].
  left. unfold ex_account. now rewrite H.
Qed.
Lemma saved_put2 c c1 a acc b bcc : saved c (ex_put c a acc) -> ex_accounts c1 = ex_accounts (ex_put c a acc) ->
  ac_covered bcc \/ b = cf_owner (ex_cfg c) -> saved c (ex_put c1 b bcc).
Proof.
  intros H Hc Hb d. unfold covered_at. rewrite ex_account_put. destruct (String.eqb_spec b d) as [<-|]; [right; destruct Hb; auto|].
  specialize (H d). unfold covered_at, ex_account in *. now rewrite Hc.
Qed.
Lemma ex_call_saved c e x c' ps : ex_call c e x = Some (c', ps) -> saved c c'.
Proof.
  intros H. destruct (is_settings x) eqn:Es; [apply settings_call in H as [(_ & _ & Ha & _) _]; [now apply saved_accounts|done]|].
  call_cases x Es H; try (apply saved_accounts; reflexivity); try (apply saved_put; [reflexivity|auto; fail]).
  1-4: apply ex_execute_frame in Hx as (_ & _ & Ha & _); apply saved_put; auto.
  1-4: eapply saved_put2; [apply saved_put; [reflexivity|]|reflexivity|]; auto.
  intros a. unfold covered_at, ex_account. ex_cbn. destruct (decide (e_caller e = a)) as [<-|Hne].
  - right; left. now rewrite lookup_delete.
  - left. now rewrite lookup_delete_ne.
Qed.
Lemma ex_ft_on_transfer_saved c e s x m c' ps : ex_ft_on_transfer c e s x m = Some (c', ps) -> saved c c'.
Proof.
  unfold ex_ft_on_transfer. intros H. cbv zeta in H. grd H. grd H. destruct m as [|r l echo su rc skip|r l infos skip].
  - grd H. bnd H c1 H1. injection H as <- <-. apply ex_deposit_inv in H1 as (acc & acc' & _ & _ & _ & Hc & ->). apply saved_put; auto.
  - grd H. grd H. bnd H u Hu. bnd H d Hd. destruct d as [c1 outs]. grd H. injection H as <- <-. apply ex_direct_frame in Hd as (_ & _ & A & _).
    now apply saved_accounts.
  - bnd H c1 H1. injection H as <- <-. apply ex_hot_zap_inv in H1 as (acc & ts & c2 & outs & m & c3 & m' & acc' & _ & _ & _ & _ & _ & _ & Hd & _ & Hz & _ & _ & Hc & ->).
    apply ex_direct_frame in Hd as (_ & _ & A & _). apply ex_zap_loop_frame in Hz as (_ & _ & B & _). apply saved_put; auto. congruence.
Qed.
(** Storage cover survives every event, for accounts other than the owner's. *)
Lemma happens_covered w ev now c c' a :
  ex_wf now c -> happens w ev now c c' -> a <> cf_owner (ex_cfg c) -> covered_at c a -> covered_at c' a.
Proof.
  intros Hwf H Hne Ha.
  assert (Hs : saved c c' -> covered_at c' a).
  { intros S. destruct (S a) as [S1|[S1|S1]]; [|done|done]. unfold covered_at in *. now rewrite S1. }
  destruct H as [|e x ps c' Hev He HW Hc H|e s x m ps c' He HW H|e s t x c' He H|i id s r x ret c' Hi H|i e act s pid x fee ok ps c' He Hi H|o c' H].
  - done.
  - eapply Hs, ex_call_saved; eauto.
  - eapply Hs, ex_ft_on_transfer_saved; eauto.
  - destruct H as [acc acc' Hacc Hd|m Hd Hsp Hm|acc Hd Hsp Hdep].
    + pose proof (ex_wf_account _ _ _ _ Hwf Hacc) as Hdj. pose proof (ac_check_deposit_spec _ _ _ _ _ Hdj Hd) as (_ & _ & Hcov).
      unfold covered_at in *. rewrite ex_account_put. destruct (String.eqb_spec s a) as [<-|]; [|done]. rewrite Hacc in Ha. exact (Hcov Ha).
    + exact Ha.
    + unfold covered_at in *. rewrite ex_account_put. destruct (String.eqb_spec (cf_owner (ex_cfg c)) a) as [<-|]; done.
  - apply Hs. apply ex_mft_resolve_inv in H as [[-> _]|(bal & _ & _ & _ & H)]; [apply saved_refl|].
    apply ex_mft_transfer_inv in H as (_ & _ & H). destruct (mft_pool_of id).
    + destruct H as (p & p' & _ & _ & _ & _ & ->). now apply saved_accounts.
    + destruct H as (sa & sa' & ra & ra' & _ & _ & _ & _ & H1 & H2 & ->). eapply saved_put2; [apply saved_put; [reflexivity|]|reflexivity|]; auto.
  - apply Hs. apply ex_callback_shadow_inv in H as [(_ & _ & -> & ->)|[(_ & _ & -> & acc & acc1 & Hacc & Hu & Hcov & ->)|(_ & acc & acc1 & Hacc & Hu & Hcov & -> & ->)]];
      [apply saved_refl|now apply saved_put; auto..].
  - unfold ex_oracle in H. bnd H r Hr. injection H as <-. exact Ha.
Qed.

(** ** Only shadow actions and liquidations touch the shadows *)
Lemma ac_deposit_shadow a t x a' : ac_deposit a t x = Some a' -> ac_shadow a' = ac_shadow a.
Proof. intros H. apply ac_deposit_cases in H as [[_ ->]|[_ ->]]; done. Qed.
Lemma ac_withdraw_shadow a t x a' : ac_withdraw a t x = Some a' -> ac_shadow a' = ac_shadow a.
Proof.
  unfold ac_withdraw. intros H. destruct (0 <? x); [|now injection H as <-].
  destruct (ac_legacy a !! t); [bnd H z Hz; now injection H as <-|]. bnd H y Hy. bnd H z Hz. now injection H as <-.
Qed.
Lemma ac_unregister_shadow a t a' : ac_unregister a t = Some a' -> ac_shadow a' = ac_shadow a.
Proof. unfold ac_unregister. intros H. grd H. grd H. now injection H as <-. Qed.
Lemma ac_unregister_all_shadow ts : forall a a', ac_unregister_all a ts = Some a' -> ac_shadow a' = ac_shadow a.
Proof.
  induction ts as [|t ts IH]; intros a a' H; cbn [ac_unregister_all] in H; [now injection H as <-|].
  bnd H b Hb. apply ac_unregister_shadow in Hb. apply IH in H. congruence.
Qed.
Lemma ac_register_shadow ts : forall a, ac_shadow (ac_register a ts) = ac_shadow a.
Proof. induction ts as [|t ts IH]; intros a; cbn [ac_register]; [done|]. rewrite IH. now destruct (ac_get_balance a t). Qed.
Lemma ac_deposit_all_shadow ts : forall xs a a', ac_deposit_all a ts xs = Some a' -> ac_shadow a' = ac_shadow a.
Proof.
  induction ts as [|t ts IH]; intros xs a a' H; cbn [ac_deposit_all] in H; [now injection H as <-|].
  destruct xs; [done|]. bnd H b Hb. apply ac_deposit_shadow in Hb. apply IH in H. congruence.
Qed.
Lemma ac_withdraw_all_shadow ts : forall xs a a', ac_withdraw_all a ts xs = Some a' -> ac_shadow a' = ac_shadow a.
Proof.
  induction ts as [|t ts IH]; intros xs a a' H; cbn [ac_withdraw_all] in H; [now injection H as <-|].
  destruct xs; [done|]. bnd H b Hb. apply ac_withdraw_shadow in Hb. apply IH in H. congruence.
Qed.
Lemma ac_deposit_list_shadow l : forall a a', ac_deposit_list a l = Some a' -> ac_shadow a' = ac_shadow a.
Proof.
  induction l as [|[t x] l IH]; intros a a' H; cbn [ac_deposit_list] in H; [now injection H as <-|].
  bnd H b Hb. apply ac_deposit_shadow in Hb. apply IH in H. congruence.
Qed.
Lemma va_take_shadow l : forall a va a' va', va_take a va l = Some (a', va') -> ac_shadow a' = ac_shadow a.
Proof.
  induction l as [|[t x] l IH]; intros a va a' va' H; cbn [va_take] in H; [now injection H as <- <-|].
  bnd H b Hb. bnd H d Hd. apply ac_withdraw_shadow in Hb. apply IH in H. congruence.
Qed.
Lemma ex_exec_action_shadow c e acc r a prev c' acc' x : ex_exec_action c e acc r a prev = Some (c', acc', x) -> ac_shadow acc' = ac_shadow acc.
Proof.
  unfold ex_exec_action. intros H. destruct a.
  - bnd H amt Hamt. bnd H acc1 H1. bnd H q Hq. destruct q as [c1 o]. bnd H acc2 H2. injection H as <- <- <-.
    apply ac_withdraw_shadow in H1. apply ac_deposit_shadow in H2. congruence.
  - bnd H amt Hamt. bnd H q Hq. destruct q as [c1 o]. injection H as <- <- <-. done.
Qed.
Lemma ex_finalize_shadow acc pi prev acc' : ex_finalize acc pi prev = Some acc' -> ac_shadow acc' = ac_shadow acc.
Proof. unfold ex_finalize. intros H. destruct pi; [|now injection H as <-]. bnd H x Hx. eapply ac_withdraw_shadow; eauto. Qed.
Lemma ex_execute_shadow c e acc r l prev skip c' acc' res : ex_execute c e acc r l prev skip = Some (c', acc', res) -> ac_shadow acc' = ac_shadow acc.
Proof.
  unfold ex_execute. intros H. grd H. grd H. bnd H a0 Ha0. bnd H q Hq. destruct q as [[c1 acc1] x]. bnd H u Hu. injection H as <- <- <-.
  destruct (is_swap a0).
  - clear -Hq. revert c acc prev Hq. induction l as [|a l IH]; intros c acc prev H; cbn [ex_swap_loop] in H.
    + now injection H as <- <- <-.
    + bnd H q Hq. destruct q as [[c2 acc2] y]. apply ex_exec_action_shadow in Hq. apply IH in H. congruence.
  - clear -Hq. revert Hq. generalize (@None AccountId) as pi. intros pi Hq.
    revert c acc prev pi Hq. induction l as [|a l IH]; intros c acc prev pi H; cbn [ex_output_loop] in H.
    + bnd H q Hq. injection H as <- <- <-. eapply ex_finalize_shadow; eauto.
    + bnd H acc0 Hacc0. bnd H q Hq. destruct q as [[c2 acc2] y]. apply ex_exec_action_shadow in Hq. apply IH in H.
      assert (ac_shadow acc0 = ac_shadow acc); [|congruence]. destruct a as [|? ? [z|] ? ?]; [done| |].
      * bnd Hacc0 d Hd. apply ex_finalize_shadow in Hd. apply ac_deposit_shadow in Hacc0. congruence.
      * bnd Hacc0 d Hd. grd Hacc0. now injection Hacc0 as <-.
Qed.
Definition shadow_frame (c c' : Exchange) : Prop := forall pid a, shadow_at c' pid a = shadow_at c pid a.
Lemma shadow_accounts c c' : ex_accounts c' = ex_accounts c -> shadow_frame c c'.
Proof. intros H pid a. unfold shadow_at, ex_account. now rewrite H. Qed.
Lemma shadow_put c a acc pid b :
  shadow_at (ex_put c a acc) pid b = if String.eqb a b then default (mkShadow 0 0) (ac_shadow acc !! pid) else shadow_at c pid b.
Proof. unfold shadow_at. rewrite ex_account_put. now destruct (String.eqb a b). Qed.
Lemma shadow_put_same c c1 a acc acc' : ex_account c a = Some acc -> ac_shadow acc' = ac_shadow acc ->
  shadow_frame c c1 -> shadow_frame c (ex_put c1 a acc').
Proof.
  intros Ha Hs H pid b. rewrite shadow_put. destruct (String.eqb_spec a b) as [<-|]; [|apply H]. unfold shadow_at. now rewrite Ha, Hs.
Qed.
Lemma shadow_register c a x : shadow_frame c (ex_put c a (ac_set_near (ex_account_or_new c a) x)).
Proof.
  intros q b. rewrite shadow_put. destruct (String.eqb_spec a b) as [<-|]; [|done]. unfold shadow_at, ex_account_or_new.
  destruct (ex_account c a); [done|]. cbn [default from_option Datatypes.id ac_set_near ac_new ac_shadow]. now rewrite lookup_empty.
Qed.
Definition touches_shadow (x : Call) : bool := match x with CShadow _ _ _ | CLiquidation _ _ _ _ _ => true | _ => false end.
Ltac sh_same :=
  repeat match goal with
  | H : ac_withdraw_all _ _ _ = Some _ |- _ => apply ac_withdraw_all_shadow in H
  | H : ac_deposit_all _ _ _ = Some _ |- _ => apply ac_deposit_all_shadow in H
  | H : ac_withdraw _ _ _ = Some _ |- _ => apply ac_withdraw_shadow in H
  | H : ac_deposit _ _ _ = Some _ |- _ => apply ac_deposit_shadow in H
  | H : ac_deposit_list _ _ = Some _ |- _ => apply ac_deposit_list_shadow in H
  | H : ac_unregister_all _ _ = Some _ |- _ => apply ac_unregister_all_shadow in H
  | H : (if ?u then ac_unregister _ _ else Some _) = Some _ |- _ => destruct u; [apply ac_unregister_shadow in H|injection H as H]
  | H : va_take _ _ _ = Some _ |- _ => apply va_take_shadow in H
  end.
Lemma ex_call_shadow c e x c' ps : touches_shadow x = false -> ex_call c e x = Some (c', ps) -> shadow_frame c c'.
Proof.
  intros Ht H. destruct (is_settings x) eqn:Es; [apply settings_call in H as [(_ & _ & Ha & _) _]; [now apply shadow_accounts|done]|].
  call_cases x Es H; try discriminate Ht; try (apply shadow_accounts; reflexivity).
  all: try (sh_same; eapply shadow_put_same; [eassumption|congruence|apply shadow_accounts; reflexivity]; fail).
  1-4: pose proof (ex_execute_frame _ _ _ _ _ _ _ _ _ _ Hx) as (_ & _ & Ha & _); sh_same; try apply ex_execute_shadow in Hx;
    eapply shadow_put_same; [eassumption|congruence|now apply shadow_accounts].
  - eapply shadow_put_same; [eassumption|apply ac_register_shadow|apply shadow_accounts; reflexivity].
  - sh_same; eapply shadow_put_same; [eassumption|congruence|apply shadow_accounts; reflexivity|eassumption|congruence|apply shadow_accounts; reflexivity].
  - sh_same. do 2 (eapply shadow_put_same; [eassumption|congruence|]). apply shadow_accounts; reflexivity.
  - sh_same. do 2 (eapply shadow_put_same; [eassumption|congruence|]). apply shadow_accounts; reflexivity.
  - eapply shadow_put_same; [eassumption|done|apply shadow_accounts; reflexivity].
  - assert (Hf : shadow_frame c (ex_put c (e_caller e) acc2)).
    { sh_same; (eapply shadow_put_same; [eassumption|congruence|apply shadow_accounts; reflexivity]). }
    intros q b. rewrite shadow_put. destruct (String.eqb_spec (cf_owner (ex_cfg c)) b) as [<-|]; [|apply Hf].
    rewrite <- (Hf q (cf_owner (ex_cfg c))). unfold shadow_at.
    match goal with H : ex_account _ (cf_owner _) = Some oa |- _ => rewrite H end.
    match goal with H : ac_deposit oa _ _ = Some _ |- _ => now rewrite (ac_deposit_shadow _ _ _ _ H) end.
  - apply shadow_register.
  - apply shadow_register.
  - eapply shadow_put_same; [eassumption|done|apply shadow_accounts; reflexivity].
  - intros q b. unfold shadow_at, ex_account in *. ex_cbn. destruct (decide (e_caller e = b)) as [<-|]; [|now rewrite lookup_delete_ne].
    rewrite lookup_delete. cbn [fmap option_fmap option_map].
    match goal with H : _ = Some acc |- _ => rewrite H end. match goal with H : ac_shadow acc = ∅ |- _ => now rewrite H, lookup_empty end.
Qed.

(** ** Shares *)
Lemma shares_put c pid p q a : is_Some (ex_pool c pid) ->
  shares_at (ex_put_pool c pid p) q a = if pid =? q then pl_share_of p a else shares_at c q a.
Proof. intros H. unfold shares_at. rewrite ex_pool_put by done. now destruct (pid =? q). Qed.
Lemma shares_same c c' q a : ex_pools c' = ex_pools c -> shares_at c' q a = shares_at c q a.
Proof. unfold shares_at, ex_pool. now intros ->. Qed.
Lemma shares_pool c pid p a : ex_pool c pid = Some p -> shares_at c pid a = pl_share_of p a.
Proof. unfold shares_at. now intros ->. Qed.
Definition no_rates : RateState := mkRateState ∅ ∅ None None.
Lemma pl_transfer_any p s r x p' : pl_share_transfer p s r x = Some p' ->
  x <= pl_share_of p s /\ (forall t, pl_reserve p' t = pl_reserve p t) /\
  (forall h, pl_share_of p' h + only s h x = pl_share_of p h + only r h x).
Proof.
  intros H. destruct (decide (s = r)) as [->|Hne]; [|apply (pl_transfer_spec p no_rates 0) in H; tauto].
  destruct p as [q|q]; cbn [pl_share_transfer] in H; apply fmap_Some in H as (q' & H & ->); cbn [pl_reserve pl_share_of].
  - apply sp_transfer_inv in H as (b & bo & Hb & Hab & Hr & _ & ->). rewrite lookup_insert in Hr. injection Hr as <-. unfold sp_share_of.
    split; [rewrite Hb; exact Hab|]. split; [done|]. intros h. cbn [sp_shares sp_set_shares]. f_equal. destruct (decide (r = h)) as [<-|].
    + rewrite lookup_insert, Hb. cbn [default from_option Datatypes.id]. lia.
    + now rewrite !lookup_insert_ne.
  - apply st_transfer_inv in H as (b & bo & Hb & Hab & Hr & _ & ->). rewrite lookup_insert in Hr. injection Hr as <-. unfold st_share_of.
    split; [rewrite Hb; exact Hab|]. split; [done|]. intros h. cbn [st_shares st_set_shares]. f_equal. destruct (decide (r = h)) as [<-|].
    + rewrite lookup_insert, Hb. cbn [default from_option Datatypes.id]. lia.
    + now rewrite !lookup_insert_ne.
Qed.

(** What every event but a donation leaves: shares only fall when they are not locked. *)
Definition shares_kept (c c' : Exchange) : Prop := forall pid a,
  shares_at c pid a <= shares_at c' pid a \/ a = ex_self c \/
  (farm_at c pid a <= shares_at c' pid a /\ burrow_at c pid a <= shares_at c' pid a).
Lemma kept_same c c' : ex_pools c' = ex_pools c -> shares_kept c c'.
Proof. intros H pid a. left. rewrite (shares_same _ _ _ _ H). lia. Qed.
Lemma kept_pools c c1 c' : ex_pools c' = ex_pools c1 -> shares_kept c c1 -> shares_kept c c'.
Proof. intros H K pid a. rewrite (shares_same _ _ _ _ H). apply K. Qed.
Lemma kept_put c pid p p' : ex_pool c pid = Some p -> (forall h, pl_share_of p h <= pl_share_of p' h) -> shares_kept c (ex_put_pool c pid p').
Proof.
  intros Hp H q a. left. rewrite shares_put by eauto. destruct (N.eqb_spec pid q) as [<-|]; [|lia]. rewrite (shares_pool _ _ _ _ Hp). apply H.
Qed.
Lemma kept_swaps c c' : swap_frame c c' -> forall pid a, shares_at c pid a <= shares_at c' pid a.
Proof.
  intros (_ & _ & _ & _ & _ & H) pid a. unfold shares_at, ex_pool. destruct (ex_pools c !! N.to_nat pid) as [p|] eqn:E; [|lia].
  destruct (Forall2_lookup_l _ _ _ _ _ H E) as (p' & -> & _ & Hle). apply Hle.
Qed.
Lemma kept_append c c' p : ex_pools c' = ex_pools c ++ [p] -> shares_kept c c'.
Proof.
  intros H pid a. left. unfold shares_at, ex_pool. rewrite H. destruct (ex_pools c !! N.to_nat pid) as [q|] eqn:E; [|lia].
  rewrite (lookup_app_l_Some _ _ _ _ E). lia.
Qed.
(** [x] unlocked shares of [s] leave. *)
Lemma kept_unlocked c pid p p' s acc x :
  ex_pool c pid = Some p -> ex_account c s = Some acc -> unlocked acc pid (pl_share_of p s) x ->
  (forall h, pl_share_of p h <= pl_share_of p' h + only s h x) -> shares_kept c (ex_put_pool c pid p').
Proof.
  intros Hp Ha Hu H q a. rewrite shares_put by eauto. destruct (N.eqb_spec pid q) as [<-|]; [|left; lia].
  rewrite (shares_pool _ _ _ _ Hp). specialize (H a). unfold only in H. destruct (String.eqb_spec s a) as [E|]; [subst a|left; lia].
  right; right. unfold farm_at, burrow_at, shadow_at. rewrite Ha. destruct (ac_shadow acc !! pid) as [r|] eqn:Er; cbn [default from_option Datatypes.id sh_farm sh_burrow]; [|lia].
  destruct (Hu r Er). lia.
Qed.
(** shares of somebody without account *)
Lemma kept_free c pid p p' s x :
  ex_pool c pid = Some p -> (forall acc, ex_account c s = Some acc -> unlocked acc pid (pl_share_of p s) x) ->
  (forall h, pl_share_of p h <= pl_share_of p' h + only s h x) -> shares_kept c (ex_put_pool c pid p').
Proof.
  intros Hp Hu H. destruct (ex_account c s) as [acc|] eqn:Ha; [eapply kept_unlocked; eauto|].
  intros q a. rewrite shares_put by eauto. destruct (N.eqb_spec pid q) as [<-|]; [|left; lia].
  rewrite (shares_pool _ _ _ _ Hp). specialize (H a). unfold only in H. destruct (String.eqb_spec s a) as [E|]; [subst a|left; lia].
  right; right. unfold farm_at, burrow_at, shadow_at. rewrite Ha. cbn. lia.
Qed.
Lemma kept_mft c id s r am c' x : ex_mft_transfer c id s r am = Some (c', x) -> shares_kept c c'.
Proof.
  intros H. apply ex_mft_transfer_inv in H as (Hne & _ & H). destruct (mft_pool_of id).
  - destruct H as (p & p' & Hp & _ & Hu & Ht & ->). apply pl_transfer_any in Ht as (_ & _ & Ht). eapply kept_free; eauto. intros h. specialize (Ht h). lia.
  - destruct H as (sa & sa' & ra & ra' & _ & _ & _ & _ & _ & _ & ->). apply kept_same. reflexivity.
Qed.
Lemma kept_zap e s l : forall c m c' m', ex_wf (e_now e) c -> e_now e < 2 ^ 64 ->
  ex_zap_loop c e s m l = Some (c', m') -> forall pid a, shares_at c pid a <= shares_at c' pid a.
Proof.
  induction l as [|i l IH]; intros c m c' m' Hwf HW H pid a; cbn [ex_zap_loop] in H; [injection H as <- <-; lia|].
  bnd H q Hq. destruct q as [c1 m1]. transitivity (shares_at c1 pid a).
  - apply ex_zap_one_inv in Hq as (p & p' & am & sh & Hp & Hadd & _ & _ & ->).
    pose proof (pl_reachable_wf _ _ (ex_wf_pool _ _ _ _ Hwf Hp)) as Hpw.
    rewrite shares_put by eauto. destruct (N.eqb_spec (ai_pool i) pid) as [<-|]; [|lia]. rewrite (shares_pool _ _ _ _ Hp).
    destruct Hadd as [(_ & Hadd & _)|(_ & _ & mn & _ & Hadd)].
    + apply (pl_add_spec _ no_rates 0) in Hadd as (_ & _ & _ & _ & _ & _ & Hs); [|done]. rewrite Hs. lia.
    + apply pl_add_stable_spec in Hadd as (_ & _ & _ & _ & _ & _ & Hs); done.
  - apply ex_zap_one_moved in Hq as [_ M]; auto. eapply IH; [apply M|done|exact H].
Qed.
Lemma kept_transfer c e s x m c' ps : ex_wf (e_now e) c -> e_now e < 2 ^ 64 ->
  ex_ft_on_transfer c e s x m = Some (c', ps) -> forall pid a, shares_at c pid a <= shares_at c' pid a.
Proof.
  intros Hwf HW H pid a. unfold ex_ft_on_transfer in H. cbv zeta in H. grd H. grd H. destruct m as [|r l echo su rc skip|r l infos skip].
  - grd H. bnd H c1 H1. injection H as <- <-. apply ex_deposit_inv in H1 as (acc & acc' & _ & _ & _ & _ & ->). apply N.eq_le_incl. reflexivity.
  - grd H. grd H. bnd H u Hu. bnd H d Hd. destruct d as [c1 outs]. grd H. injection H as <- <-. apply ex_direct_moved in Hd as [Hs _]; auto. now apply kept_swaps.
  - bnd H c1 H1. injection H as <- <-. apply ex_hot_zap_inv in H1 as (acc & ts & c2 & outs & m & c3 & m' & acc' & _ & _ & _ & _ & _ & _ & Hd & _ & Hz & _ & _ & _ & ->).
    apply ex_direct_moved in Hd as [Hs M]; auto. transitivity (shares_at c2 pid a); [now apply kept_swaps|]. change (shares_at (ex_put c3 s acc') pid a) with (shares_at c3 pid a).
    eapply kept_zap; [apply M|done|exact Hz].
Qed.
Definition is_donation (x : Call) : bool := match x with CDonateShare _ _ _ => true | _ => false end.
Lemma ex_call_kept c e x c' ps : ex_wf (e_now e) c -> e_now e < 2 ^ 64 ->
  is_donation x = false -> touches_shadow x = false -> ex_call c e x = Some (c', ps) -> shares_kept c c'.
Proof.
  intros Hwf HW Hd Ht H. destruct (is_settings x) eqn:Es; [apply settings_call in H as [(_ & Hp & _) _]; [now apply kept_same|done]|].
  call_cases x Es H; try discriminate Hd; try discriminate Ht; try (apply kept_same; reflexivity).
  all: try match goal with H : ex_pool _ _ = Some ?p |- _ => pose proof (pl_reachable_wf _ _ (ex_wf_pool _ _ _ _ Hwf H)) as Hpw end.
  1-2: eapply kept_append; reflexivity.
  1: apply ex_execute_moved in Hx as (_ & Hs & _); [|done..|eapply ex_wf_account; eauto]; intros q b; left; exact (kept_swaps _ _ Hs q b).
  1: match goal with H : va_take _ _ _ = Some _ |- _ => apply va_take_spec in H as (_ & Hv & _); [|eapply ex_wf_account; eauto|apply ac_new_disjoint] end;
     apply ex_execute_moved in Hx as (_ & Hs & _); [|done|done|apply Hv]; intros q b; left; exact (kept_swaps _ _ Hs q b).
  1-2: apply ex_execute_moved in Hx as (_ & Hs & _); [|done..|eapply ex_wf_account; eauto]; intros q b; left; exact (kept_swaps _ _ Hs q b).
  - apply (kept_pools c (ex_put_pool c pid p')); [reflexivity|]. eapply kept_put; [eassumption|].
    match goal with H : pl_add_liquidity _ _ _ _ = Some _ |- _ => apply (pl_add_spec _ no_rates 0) in H as (_ & _ & _ & _ & _ & _ & Hs); [|done] end.
    intros h. rewrite Hs. lia.
  - apply (kept_pools c (ex_put_pool c pid p')); [reflexivity|]. eapply kept_put; [eassumption|].
    match goal with H : pl_add_stable_liquidity _ _ _ _ _ _ _ _ = Some _ |- _ => apply pl_add_stable_spec in H as (_ & _ & _ & _ & _ & _ & Hs); done end.
  - apply (kept_pools c (ex_put_pool c pid p')); [reflexivity|]. eapply (kept_unlocked c pid p p'); [eassumption..|].
    match goal with H : pl_remove_liquidity _ _ _ _ _ = Some _ |- _ => apply (pl_remove_spec _ no_rates 0) in H as (_ & _ & _ & _ & Hs); [|done] end.
    intros h. rewrite <- (Hs h). lia.
  - apply (kept_pools c (ex_put_pool c pid p')); [reflexivity|]. eapply (kept_unlocked c pid p p'); [eassumption..|].
    match goal with H : pl_remove_by_tokens _ _ _ _ _ _ _ _ = Some _ |- _ => apply pl_remove_tokens_spec in H as (_ & _ & _ & _ & _ & Hs & _); done end.
  - eapply kept_put; [eassumption|].
    match goal with H : pl_share_register _ _ = Some _ |- _ => apply (pl_register_spec _ no_rates 0) in H as (_ & _ & Hs) end. intros h. rewrite Hs. lia.
  - eapply kept_put; [eassumption|].
    match goal with H : pl_share_unregister _ _ = Some _ |- _ => apply (pl_unregister_spec _ no_rates 0) in H as (_ & _ & _ & Hs) end. intros h. rewrite Hs. lia.
  - match goal with H : pl_share_transfer _ _ _ _ = Some _ |- _ => apply pl_transfer_any in H as (_ & _ & Ht') end.
    eapply kept_free; [eassumption..|]. intros h. specialize (Ht' h). lia.
  - match goal with H : pl_share_transfer _ _ _ _ = Some _ |- _ => apply pl_transfer_any in H as (_ & _ & Ht') end.
    eapply kept_free; [eassumption..|]. intros h. specialize (Ht' h). lia.
  - eapply kept_put; [eassumption|]. apply N.ltb_lt in G0. destruct (pl_fee_spec p no_rates 0 _ G0) as (_ & _ & Hs). intros h. rewrite Hs. lia.
  - match goal with H : pl_remove_liquidity _ _ _ _ _ = Some _ |- _ => apply (pl_remove_spec _ no_rates 0) in H as (_ & _ & _ & _ & Hs); [|done] end.
    intros q a. change (shares_at (ex_put (ex_put_pool c pid p') (cf_owner (ex_cfg c)) acc') q a) with (shares_at (ex_put_pool c pid p') q a).
    rewrite shares_put by eauto. destruct (N.eqb_spec pid q) as [E|]; [subst q|left; lia].
    match goal with H : ex_pool c pid = Some p |- _ => rewrite (shares_pool _ _ _ _ H) end. specialize (Hs a). unfold only in Hs.
    destruct (String.eqb_spec (ex_self c) a); [auto|left; lia].
  - eapply kept_put; [eassumption|]. apply pl_ramp_spec in Hp0 as (_ & _ & Hs). intros h. rewrite Hs. lia.
  - eapply kept_put; [eassumption|]. apply pl_stop_ramp_spec in Hp0 as (_ & _ & Hs). intros h. rewrite Hs. lia.
Qed.

(** ** Locked shares *)
(** The exchange itself has no shadows: it never calls itself for a shadow action. *)
Definition locked_inv (c : Exchange) : Prop := all_locked c /\ forall pid, shadow_at c pid (ex_self c) = mkShadow 0 0.
Lemma locked_kept c c' : (forall pid a, farm_at c' pid a <= farm_at c pid a /\ burrow_at c' pid a <= burrow_at c pid a) ->
  shares_kept c c' -> ex_self c' = ex_self c -> locked_inv c -> locked_inv c'.
Proof.
  intros Hf Hk Hs [Hl Hn]. split.
  - intros pid a. destruct (Hf pid a) as [F1 F2], (Hl pid a) as [L1 L2]. destruct (Hk pid a) as [K|[->|[K1 K2]]]; [lia| |lia].
    unfold farm_at, burrow_at in F1, F2. rewrite (Hn pid) in F1, F2. cbn [sh_farm sh_burrow] in *. unfold farm_at, burrow_at. lia.
  - intros pid. rewrite Hs. destruct (Hf pid (ex_self c)) as [F1 F2]. unfold farm_at, burrow_at in F1, F2. rewrite (Hn pid) in F1, F2. cbn [sh_farm sh_burrow] in *.
    destruct (shadow_at c' pid (ex_self c)) as [f b]. cbn [sh_farm sh_burrow] in *. f_equal; lia.
Qed.
Lemma shadow_frame_le c c' : shadow_frame c c' -> forall pid a, farm_at c' pid a <= farm_at c pid a /\ burrow_at c' pid a <= burrow_at c pid a.
Proof. intros H pid a. unfold farm_at, burrow_at. rewrite (H pid a). lia. Qed.
(** Reducing a shadow *)
Definition is_back (act : ShadowAction) : bool := negb (is_cast act).
Lemma update_shadow_back c s acc pid act x acc' near :
  ex_account c s = Some acc -> is_back act = true -> ac_update_shadow acc pid act x = Some acc' ->
  forall q a, farm_at (ex_put c s (ac_set_near acc' near)) q a <= farm_at c q a /\ burrow_at (ex_put c s (ac_set_near acc' near)) q a <= burrow_at c q a.
Proof.
  intros Ha Hb Hu q a. unfold farm_at, burrow_at. rewrite shadow_put. destruct (String.eqb_spec s a) as [E|]; [subst a|lia].
  apply ac_update_shadow_spec in Hu as (r & Hr & H1 & H2 & _). unfold shadow_at. rewrite Ha. cbn [ac_set_near ac_shadow].
  destruct (decide (q = pid)) as [->|Hq]; [|rewrite H2 by done; lia]. rewrite H1. unfold sh_update in Hr.
  destruct act; try discriminate Hb; bnd Hr y Hy; apply csub_Some in Hy as [-> _]; injection Hr as <-; cbn [sh_farm sh_burrow]; lia.
Qed.
Lemma ac_set_near_same acc : ac_set_near acc (ac_near acc) = acc.
Proof. now destruct acc. Qed.
Lemma ex_call_self c e x c' ps : ex_call c e x = Some (c', ps) -> ex_self c' = ex_self c.
Proof.
  intros H. destruct (is_settings x) eqn:Es; [apply settings_call in H as [(Hs & _) _]; done|]. now apply ex_call_settings in H as (_ & _ & ->).
Qed.
Lemma donation_kept c e pid am unreg c' ps :
  donates_free c e (CDonateShare pid am unreg) -> ex_donate_share c e pid am unreg = Some (c', ps) -> shares_kept c c'.
Proof.
  cbn [donates_free]. intros Hf H.
  apply ex_donate_share_inv in H as (p & x & p1 & p2 & _ & _ & Hp & Hx & _ & Ht & Hu & Hc).
  rewrite (shares_pool _ _ _ _ Hp), <- Hx in Hf. apply pl_transfer_any in Ht as (_ & _ & Hs1).
  assert (H2 : forall h, pl_share_of p2 h = pl_share_of p1 h).
  { destruct unreg; [|injection Hu as <-; done]. apply (pl_unregister_spec p1 no_rates 0) in Hu. tauto. }
  assert (K : shares_kept c (ex_put_pool c pid p2)).
  { intros q a. rewrite shares_put by eauto. destruct (N.eqb_spec pid q) as [E|]; [subst q|left; lia].
    rewrite (shares_pool _ _ _ _ Hp), H2. specialize (Hs1 a). unfold only in Hs1. destruct (String.eqb_spec (e_caller e) a) as [E|]; [subst a|left; lia].
    right; right. lia. }
  destruct Hc as [[-> _]|(acc & _ & _ & _ & ->)]; [done|]. eapply kept_pools; [reflexivity|exact K].
Qed.
(** Casting *)
Lemma cast_locked c e act pid am c' ps :
  e_caller e <> ex_self c -> ex_shadow_action c e act pid am = Some (c', ps) -> locked_inv c -> locked_inv c'.
Proof.
  intros Hne H [Hl Hn]. apply ex_shadow_action_inv in H as (acc & p & mx & x & _ & Ha & Hp & Hm & _ & _ & Hx & [(Hc & acc' & qs & Hu & _ & _ & -> & _)|(_ & -> & _)]); [|done].
  apply ac_update_shadow_spec in Hu as (r & Hr & H1 & H2 & _). split.
  - intros q a. change (shares_at (ex_put c (e_caller e) acc') q a) with (shares_at c q a). unfold farm_at, burrow_at. rewrite shadow_put.
    destruct (String.eqb_spec (e_caller e) a) as [E|]; [subst a|apply Hl]. specialize (Hl q (e_caller e)). unfold farm_at, burrow_at, shadow_at in Hl. rewrite Ha in Hl.
    destruct (decide (q = pid)) as [->|Hq]; [|rewrite H2 by done; exact Hl]. rewrite H1. rewrite (shares_pool _ _ _ _ Hp) in *.
    destruct act; try discriminate Hc; cbn [sh_update] in Hr; bnd Hr y Hy; apply cadd_Some in Hy as [-> _]; injection Hr as <-; cbn [sh_farm sh_burrow];
      cbn [shadow_max] in Hm; destruct (ac_shadow acc !! pid) as [r0|]; cbn [default from_option Datatypes.id sh_farm sh_burrow] in *.
    + apply csub_Some in Hm as [-> ?]. lia.
    + injection Hm as <-. lia.
    + apply csub_Some in Hm as [-> ?]. lia.
    + injection Hm as <-. lia.
  - intros q. ex_cbn. rewrite shadow_put. destruct (String.eqb_spec (e_caller e) (ex_self c)); [done|apply Hn].
Qed.
(** Liquidation: everybody's shares and shadows afterwards. *)
Lemma ex_account_put_pool c pid p a : ex_account (ex_put_pool c pid p) a = ex_account c a.
Proof. reflexivity. Qed.
Lemma liquidation_shadows c e liq vic sid x mins c' ps :
  ex_wf (e_now e) c -> ex_burrow_liquidation c e liq vic sid x mins = Some (c', ps) ->
  exists pid, shadow_id_to_pool_id sid = Some pid /\ is_Some (ex_pool c pid) /\ x <= shares_at c pid vic /\ x <= burrow_at c pid vic /\
    (forall q a, shares_at c' q a + (if q =? pid then only vic a x else 0) = shares_at c q a) /\
    (forall q a, burrow_at c' q a + (if q =? pid then only vic a x else 0) = burrow_at c q a) /\
    (forall q a, q <> pid \/ a <> vic -> farm_at c' q a = farm_at c q a) /\
    (exists back, farm_at c' pid vic + back = farm_at c pid vic /\ ps = if 0 <? back then [PRemoveShadow vic pid back] else []) /\
    (farm_at c pid vic <= shares_at c pid vic -> burrow_at c pid vic <= shares_at c pid vic ->
     farm_at c' pid vic = N.min (farm_at c pid vic) (shares_at c pid vic - x)).
Proof.
  intros Hwf H. apply ex_burrow_liquidation_inv in H as
      (pid & p & va & va1 & va2 & la & p' & out & la' & seed & avail & _ & _ & Hid & Hp & _ & Hva & Hu1 & Hav & Hseed & Hu2 & _ & Hla & Hrm & Hdep & _ & -> & Hps).
  pose proof (pl_reachable_wf _ _ (ex_wf_pool _ _ _ _ Hwf Hp)) as Hpw.
  apply (pl_remove_spec _ no_rates 0) in Hrm as (_ & Hxs & _ & _ & Hs); [|done].
  exists pid. split; [done|]. split; [eauto|]. rewrite (shares_pool _ _ _ _ Hp). split; [done|].
  set (c1 := ex_put c vic (ac_set_near va2 (ac_near va2 + e_freed e))) in *.
  assert (Hsh : forall q a, shadow_at (ex_put (ex_put_pool c1 pid p') liq la') q a = shadow_at c1 q a).
  { intros q a. rewrite shadow_put. apply ac_deposit_all_shadow in Hdep. destruct (String.eqb_spec liq a) as [E|]; [subst a|done].
    rewrite Hdep. unfold shadow_at. now rewrite Hla. }
  assert (Hb0 : shadow_at c pid vic = default (mkShadow 0 0) (ac_shadow va !! pid)) by (unfold shadow_at; now rewrite Hva).
  apply ac_update_shadow_spec in Hu1 as (r1 & Hr1 & E1 & F1 & _). rewrite <- Hb0 in Hr1. cbn [sh_update] in Hr1. bnd Hr1 y Hy. apply csub_Some in Hy as [-> Hxb]. injection Hr1 as <-.
  assert (Hav' : avail = pl_share_of p vic - N.max (farm_at c pid vic) (burrow_at c pid vic - x) /\ N.max (farm_at c pid vic) (burrow_at c pid vic - x) <= pl_share_of p vic).
  { unfold farm_at, burrow_at. destruct (ac_shadow va1 !! pid) as [r|]; cbn [default from_option Datatypes.id] in E1.
    - subst r. unfold sh_free in Hav. apply csub_Some in Hav. cbn [sh_farm sh_burrow] in Hav. tauto.
    - injection Hav as <-. injection E1 as E1 E2. lia. }
  assert (Hva2 : seed <= farm_at c pid vic /\ default (mkShadow 0 0) (ac_shadow va2 !! pid) = mkShadow (farm_at c pid vic - seed) (burrow_at c pid vic - x) /\
                 forall q, q <> pid -> ac_shadow va2 !! q = ac_shadow va !! q).
  { destruct (N.ltb_spec 0 seed).
    - apply ac_update_shadow_spec in Hu2 as (r2 & Hr2 & E2 & F2 & _). rewrite E1 in Hr2. cbn [sh_update sh_farm sh_burrow] in Hr2. bnd Hr2 y Hy.
      apply csub_Some in Hy as [-> Hys]. injection Hr2 as <-. split; [exact Hys|]. split; [exact E2|]. intros q Hq. rewrite F2 by done. now apply F1.
    - injection Hu2 as <-. split; [lia|]. rewrite E1. replace seed with 0 by lia. rewrite N.sub_0_r. split; [done|]. exact F1. }
  destruct Hva2 as (Hsd & Hat & Hoth).
  assert (Hc1 : forall q a, shadow_at c1 q a = if (q =? pid) && String.eqb vic a then mkShadow (farm_at c pid vic - seed) (burrow_at c pid vic - x) else shadow_at c q a).
  { intros q a. subst c1. rewrite shadow_put. cbn [ac_set_near ac_shadow]. destruct (N.eqb_spec q pid) as [->|Hq], (String.eqb_spec vic a) as [Ea|Ea]; cbn [andb]; try done.
    subst a. rewrite Hoth by done. unfold shadow_at. now rewrite Hva. }
  split; [exact Hxb|]. split; [|split; [|split; [|split]]].
  - intros q a. change (shares_at (ex_put (ex_put_pool c1 pid p') liq la') q a) with (shares_at (ex_put_pool c pid p') q a). rewrite shares_put by eauto.
    rewrite (N.eqb_sym q pid). destruct (N.eqb_spec pid q) as [E|]; [subst q; rewrite (shares_pool _ _ _ _ Hp); apply Hs|lia].
  - intros q a. unfold burrow_at at 1. rewrite Hsh, Hc1. unfold only. destruct (N.eqb_spec q pid) as [->|Hq], (String.eqb_spec vic a) as [Ea|Ea]; cbn [andb sh_burrow].
    + subst a. unfold burrow_at in *. lia.
    + unfold burrow_at. lia.
    + unfold burrow_at. lia.
    + unfold burrow_at. lia.
  - intros q a Hqa. unfold farm_at. rewrite Hsh, Hc1. destruct (N.eqb_spec q pid) as [->|Hq], (String.eqb_spec vic a) as [Ea|Ea]; cbn [andb]; try done. destruct Hqa; congruence.
  - exists seed. split; [|exact Hps]. unfold farm_at at 1. rewrite Hsh, Hc1, N.eqb_refl, String.eqb_refl. cbn [andb sh_farm]. lia.
  - intros L1 L2. unfold farm_at at 1. rewrite Hsh, Hc1, N.eqb_refl, String.eqb_refl. cbn [andb sh_farm].
    change (sh_burrow (shadow_at c pid vic)) with (burrow_at c pid vic) in *. destruct Hav' as [-> Hm]. subst seed.
    clear -L1 L2 Hm Hxs Hxb Hsd. set (f := farm_at c pid vic) in *. set (b := burrow_at c pid vic) in *. set (T := pl_share_of p vic) in *.
    destruct (N.ltb_spec 0 (T - N.max f (b - x))); [destruct (N.ltb_spec x (T - N.max f (b - x)))|]; lia.
Qed.
Lemma liquidation_locked c e liq vic sid x mins c' ps :
  ex_wf (e_now e) c -> ex_burrow_liquidation c e liq vic sid x mins = Some (c', ps) -> ex_self c' = ex_self c -> locked_inv c -> locked_inv c'.
Proof.
  intros Hwf H Hself [Hl Hn]. apply liquidation_shadows in H as (pid & _ & _ & Hx & Hb & Hs & Hbu & Hfo & (back & Hfle & _) & Hfa); [|done].
  split.
  - intros q a. specialize (Hs q a). specialize (Hbu q a). destruct (Hl q a) as [L1 L2]. unfold only in Hs, Hbu.
    destruct (N.eqb_spec q pid) as [->|Hq]; [|rewrite Hfo by auto; lia]. destruct (String.eqb_spec vic a) as [E|E]; [subst a|rewrite Hfo by auto; lia].
    rewrite Hfa by done. lia.
  - intros q. rewrite Hself. assert (F : farm_at c' q (ex_self c) <= 0 /\ burrow_at c' q (ex_self c) <= 0).
    { specialize (Hn q). specialize (Hbu q (ex_self c)). assert (Hf : farm_at c' q (ex_self c) <= farm_at c q (ex_self c)).
      { destruct (decide (q = pid)) as [->|], (decide (ex_self c = vic)) as [Ev|]; try (rewrite Hfo by auto; lia). rewrite Ev; lia. }
      unfold farm_at, burrow_at in *. rewrite Hn in *. cbn [sh_farm sh_burrow] in *. lia. }
    unfold farm_at, burrow_at in F. destruct (shadow_at c' q (ex_self c)) as [f b]. cbn [sh_farm sh_burrow] in F. f_equal; lia.
Qed.
(** The invariant survives every event but donations of staked shares. *)
Lemma happens_locked w ev now c c' :
  ex_wf now c -> respects_locks c ev -> happens w ev now c c' -> locked_inv c -> locked_inv c'.
Proof.
  intros Hwf Hd H Hi.
  destruct H as [|e x ps c' Hev He HW Hc H|e s x m ps c' He HW H|e s t x c' He H|i id s r x ret c' Hi' H|i e act s pid x fee ok ps c' He Hi' H|o c' H].
  - done.
  - subst ev now. cbn [respects_locks] in Hd. pose proof (ex_call_self _ _ _ _ _ H) as Hself. destruct (touches_shadow x) eqn:Et.
    + destruct x; try discriminate Et; cbn [ex_call] in H; [eapply cast_locked; eauto|eapply liquidation_locked; eauto].
    + apply (locked_kept c); [apply shadow_frame_le; eapply ex_call_shadow; eauto| |done|done].
      destruct (is_donation x) eqn:Ed; [|eapply ex_call_kept; eauto]. destruct x; try discriminate Ed. cbn [ex_call] in H. eapply donation_kept; eauto.
  - subst now. apply (locked_kept c); [apply shadow_frame_le| | |done].
    + unfold ex_ft_on_transfer in H. cbv zeta in H. grd H. grd H. destruct m as [|r l echo su rc skip|r l infos skip].
      * grd H. bnd H c1 H1. injection H as <- <-. apply ex_deposit_inv in H1 as (acc & acc' & Ha & _ & Hdp & _ & ->). apply ac_deposit_shadow in Hdp.
        eapply shadow_put_same; [exact Ha|done|now apply shadow_accounts].
      * grd H. grd H. bnd H u Hu. bnd H d Hdd. destruct d as [c1 outs]. grd H. injection H as <- <-. apply ex_direct_frame in Hdd as (_ & _ & A & _). now apply shadow_accounts.
      * bnd H c1 H1. injection H as <- <-. apply ex_hot_zap_inv in H1 as (acc & ts & c2 & outs & m & c3 & m' & acc' & _ & _ & Ha & _ & _ & _ & Hdd & _ & Hz & _ & Hdl & _ & ->).
        apply ex_direct_frame in Hdd as (_ & _ & A & _). apply ex_zap_loop_frame in Hz as (_ & _ & B & _). apply ac_deposit_list_shadow in Hdl.
        eapply shadow_put_same; [exact Ha|exact Hdl|apply shadow_accounts; congruence].
    + intros pid a. left. eapply kept_transfer; eauto.
    + now apply ex_ft_on_transfer_settings in H as (_ & _ & ->).
  - pose proof (recredit_settings _ _ _ _ _ _ H) as (_ & _ & Hself). destruct H as [acc acc' Ha Hdp|m Hdp Hsp Hm|acc Hdp Hsp Hdep].
    + apply (locked_kept c); [apply shadow_frame_le|now apply kept_same|done|done]. pose proof (ex_wf_account _ _ _ _ Hwf Ha) as Hdj.
      apply (ac_check_deposit_spec _ _ _ _ _ Hdj) in Hdp as (Hf & _). eapply shadow_put_same; [exact Ha|apply Hf|now apply shadow_accounts].
    + apply (locked_kept c); [apply shadow_frame_le; now apply shadow_accounts|now apply kept_same|done|done].
    + apply (locked_kept c); [apply shadow_frame_le|now apply kept_same|done|done].
      intros q b. rewrite shadow_put. apply ac_deposit_shadow in Hdep. rewrite Hdep. destruct (String.eqb_spec (cf_owner (ex_cfg c)) b) as [E|]; [subst b|done].
      unfold shadow_at, ex_account_or_new. now destruct (ex_account c (cf_owner (ex_cfg c))).
  - apply ex_mft_resolve_inv in H as [[-> _]|(bal & _ & _ & _ & H)]; [done|].
    pose proof (kept_mft _ _ _ _ _ _ _ H) as K. pose proof (ex_mft_transfer_settings _ _ _ _ _ _ _ H) as (_ & _ & Hself).
    apply (locked_kept c); [apply shadow_frame_le|exact K|done|done]. apply ex_mft_transfer_inv in H as (Hne & _ & H). destruct (mft_pool_of id).
    + destruct H as (p & p' & _ & _ & _ & _ & ->). now apply shadow_accounts.
    + destruct H as (sa & sa' & ra & ra' & Hsa & Hra & Hw & Hdp & _ & _ & ->). apply ac_withdraw_shadow in Hw. apply ac_deposit_shadow in Hdp.
      do 2 (eapply shadow_put_same; [eassumption|congruence|]). now apply shadow_accounts.
  - apply ex_callback_shadow_inv in H as [(_ & _ & -> & ->)|[(_ & Hc & -> & acc & acc1 & Ha & Hu & _ & ->)|(_ & acc & acc1 & Ha & Hu & _ & -> & ->)]]; [done| |].
    + apply (locked_kept c); [|now apply kept_same|done|done]. eapply update_shadow_back; eauto. unfold is_back. now rewrite Hc.
    + apply (locked_kept c); [|now apply kept_same|done|done]. rewrite <- (ac_set_near_same acc1).
      destruct act; [exact (update_shadow_back c s acc pid FromFarming x acc1 _ Ha eq_refl Hu)| |exact (update_shadow_back c s acc pid FromBurrowland x acc1 _ Ha eq_refl Hu)|];
        (injection Hu as <-; intros q b; unfold farm_at, burrow_at; rewrite shadow_put; destruct (String.eqb_spec s b) as [E|]; [subst b|lia];
         unfold shadow_at; rewrite Ha; cbn [ac_set_near ac_shadow]; lia).
  - unfold ex_oracle in H. bnd H r Hr. injection H as <-. apply (locked_kept c); [apply shadow_frame_le; now apply shadow_accounts|now apply kept_same|done|done].
Qed.

(** ** Volume counters *)
(** Existing pools' counters grow by exactly the trades made. *)
Definition counts_trades (c c' : Exchange) : Prop :=
  exists ts, (ts = [] \/ exists e r c1, trades e r c ts c1) /\
  forall key i, key < N.of_nat (length (ex_pools c)) ->
    fst (vol_at c' key i) = fst (vol_at c key i) + counted (slot_in c) td_paid ts key i /\
    snd (vol_at c' key i) = snd (vol_at c key i) + counted (slot_out c) td_got ts key i.
Lemma counts_nothing c c' : ex_volumes c' = ex_volumes c -> counts_trades c c'.
Proof. intros H. exists []. split; [auto|]. intros key i _. unfold vol_at, counted. rewrite H. cbn. lia. Qed.
Lemma counts_grow e r c c1 c' ts : trades e r c ts c1 -> volumes_grow c ts c1 -> ex_volumes c' = ex_volumes c1 -> counts_trades c c'.
Proof. intros T V H. exists ts. split; [eauto|]. intros key i _. destruct (V key i) as [A B]. unfold vol_at in *. now rewrite H. Qed.
Lemma counts_append c p v : N.of_nat (S (length (ex_pools c))) <= W32 ->
  counts_trades c (ex_set_volumes (ex_set_pools c (ex_pools c ++ [p])) (<[N.of_nat (length (ex_pools c)) mod W32 := v]> (ex_volumes c))).
Proof.
  intros Hl. exists []. split; [auto|]. intros key i Hk. unfold vol_at, counted. cbn [ex_volumes ex_set_volumes fmap list_fmap lsum].
  rewrite N.mod_small by lia. rewrite lookup_insert_ne by lia. lia.
Qed.
Lemma counts_execute c e acc r l prev skip c1 acc' res c' :
  ex_wf (e_now e) c -> e_now e < 2 ^ 64 -> ac_disjoint acc ->
  ex_execute c e acc r l prev skip = Some (c1, acc', res) -> ex_volumes c' = ex_volumes c1 -> counts_trades c c'.
Proof.
  intros Hwf HW Hd H Hv. apply (ex_execute_trades (e_now e)) in H as (ts & (T & V & _) & _); [|done|lia|done|done]. eapply counts_grow; eauto.
Qed.
Lemma ex_call_counts c e x c' ps : ex_wf (e_now e) c -> e_now e < 2 ^ 64 ->
  ex_call c e x = Some (c', ps) -> N.of_nat (length (ex_pools c')) <= W32 -> counts_trades c c'.
Proof.
  intros Hwf HW H Hl. destruct (is_settings x) eqn:Es; [apply settings_call in H as [(_ & _ & _ & _ & Hv) _]; [now apply counts_nothing|done]|].
  call_cases x Es H; try (apply counts_nothing; reflexivity).
  1-2: apply counts_append; revert Hl; cbn [ex_pools ex_set_volumes ex_set_pools]; rewrite app_length; cbn [length]; intros; lia.
  1: eapply counts_execute; [done|done| |exact Hx|reflexivity]; eapply ex_wf_account; eauto.
  1: match goal with H : va_take _ _ _ = Some _ |- _ => apply va_take_spec in H as (_ & Hv & _); [|eapply ex_wf_account; eauto|apply ac_new_disjoint] end;
     eapply counts_execute; [done|done| |exact Hx|reflexivity]; apply Hv.
  all: eapply counts_execute; [done|done| |exact Hx|reflexivity]; eapply ex_wf_account; eauto.
Qed.
Lemma ex_zap_loop_volumes e s l : forall c m c' m', ex_zap_loop c e s m l = Some (c', m') -> ex_volumes c' = ex_volumes c.
Proof.
  induction l as [|i l IH]; intros c m c' m' H; cbn [ex_zap_loop] in H; [now injection H as <- <-|].
  bnd H q Hq. destruct q as [c1 m1]. apply ex_zap_one_inv in Hq as (p & p' & am & sh & _ & _ & _ & _ & ->). apply IH in H. exact H.
Qed.
Lemma ex_ft_on_transfer_counts c e s x m c' ps : ex_wf (e_now e) c -> e_now e < 2 ^ 64 ->
  ex_ft_on_transfer c e s x m = Some (c', ps) -> counts_trades c c'.
Proof.
  intros Hwf HW H. unfold ex_ft_on_transfer in H. cbv zeta in H. grd H. grd H.
  assert (Hdir : forall r l skip c1 outs c2, ex_direct c e (e_caller e) x r l skip = Some (c1, outs) -> ex_volumes c2 = ex_volumes c1 -> counts_trades c c2).
  { intros r l skip c1 outs c2 Hd Hv. apply ex_direct_inv in Hd as (va & prev & va' & res & Hdp & Hx & _). eapply counts_execute; [done|done| |exact Hx|done].
    apply ac_deposit_spec in Hdp as (Hf & _); [apply Hf|apply ac_new_disjoint]. }
  destruct m as [|r l echo su rc skip|r l infos skip].
  - grd H. bnd H c1 H1. injection H as <- <-. apply ex_deposit_inv in H1 as (acc & acc' & _ & _ & _ & _ & ->). now apply counts_nothing.
  - grd H. grd H. bnd H u Hu. bnd H d Hd. destruct d as [c1 outs]. grd H. injection H as <- <-. eapply Hdir; eauto.
  - bnd H c1 H1. injection H as <- <-. apply ex_hot_zap_inv in H1 as (acc & ts & c2 & outs & m & c3 & m' & acc' & _ & _ & _ & _ & _ & _ & Hd & _ & Hz & _ & _ & _ & ->).
    eapply Hdir; [exact Hd|]. apply ex_zap_loop_volumes in Hz. exact Hz.
Qed.
Lemma happens_counts w ev now c c' : ex_wf now c -> happens w ev now c c' -> N.of_nat (length (ex_pools c')) <= W32 -> counts_trades c c'.
Proof.
  intros Hwf H Hl.
  destruct H as [|e x ps c' Hev He HW Hc H|e s x m ps c' He HW H|e s t x c' He H|i id s r x ret c' Hi' H|i e act s pid x fee ok ps c' He Hi' H|o c' H].
  - now apply counts_nothing.
  - subst. eapply ex_call_counts; eauto.
  - subst. eapply ex_ft_on_transfer_counts; eauto.
  - apply counts_nothing. now destruct H.
  - apply counts_nothing. apply ex_mft_resolve_inv in H as [[-> _]|(bal & _ & _ & _ & H)]; [done|].
    apply ex_mft_transfer_inv in H as (Hne & _ & H). destruct (mft_pool_of id).
    + now destruct H as (p & p' & _ & _ & _ & _ & ->).
    + now destruct H as (sa & sa' & ra & ra' & Hsa & Hra & Hw & Hdp & _ & _ & ->).
  - apply counts_nothing. apply ex_callback_shadow_inv in H as [(_ & _ & -> & ->)|[(_ & Hc & -> & acc & acc1 & Ha & Hu & _ & ->)|(_ & acc & acc1 & Ha & Hu & _ & -> & ->)]]; done.
  - apply counts_nothing. unfold ex_oracle in H. bnd H r Hr. now injection H as <-.
Qed.

(** ** The list of pools *)
Definition adds_pool (ev : Event) : bool :=
  match ev with EvCall _ (CAddSimplePool _ _) | EvCall _ (CAddStablePool _ _ _ _ _) => true | _ => false end.
Lemma new_pool_facts p a p' : pl_wf p -> pl_share_register p a = Some p' ->
  (forall t, pl_reserve p' t = pl_reserve p t) /\ (forall h, pl_share_of p' h = pl_share_of p h) /\ pl_kind p' = pl_kind p /\ pl_tokens p' = pl_tokens p.
Proof.
  intros Hw H. apply (pl_register_spec _ no_rates 0) in H as (Hs & A & B). apply pl_step_same in Hs as (C & D & _); done.
Qed.
Lemma swap_length c c' : swap_frame c c' -> length (ex_pools c') = length (ex_pools c).
Proof. intros (_ & _ & _ & _ & _ & H). symmetry. eapply Forall2_length, H. Qed.
Lemma ex_call_length c e x c' ps : ex_wf (e_now e) c -> e_now e < 2 ^ 64 -> ex_call c e x = Some (c', ps) ->
  (length (ex_pools c') = length (ex_pools c) /\ adds_pool (EvCall e x) = false) \/
  exists p, adds_pool (EvCall e x) = true /\ ex_pools c' = ex_pools c ++ [p] /\ (forall t, pl_reserve p t = 0) /\ (forall a, pl_share_of p a = 0) /\
    match x with
    | CAddSimplePool ts _ => pl_kind p = SIMPLE_POOL /\ pl_tokens p = ts
    | CAddStablePool k ts _ _ _ => pl_kind p = STABLE_SWAP k /\ pl_tokens p = ts
    | _ => False
    end.
Proof.
  intros Hwf HW H. destruct (is_settings x) eqn:Es; [apply settings_call in H as [(_ & Hp & _) _]; [left; rewrite Hp; now destruct x|done]|].
  call_cases x Es H; try (left; split; [ex_cbn; rewrite ?insert_length; reflexivity|reflexivity]).
  - right. exists p'. match goal with H : sp_new _ _ = Some _, H1 : NoDup _ |- _ => pose proof (sp_new_wf _ _ _ H1 H) as Hw; unfold sp_new in H; grd H; grd H; injection H as <- end.
    match goal with H : pl_share_register _ _ = Some _ |- _ => apply new_pool_facts in H as (A & B & C & D); [|exact Hw] end.
    split; [done|]. split; [done|]. split; [|split; [|done]].
    + intros t. rewrite A. apply (beside_zeros t tokens 2).
    + intros a. rewrite B. cbn [pl_share_of]. unfold sp_share_of. cbn [sp_shares]. now rewrite lookup_empty.
  - right. exists p'. match goal with H : st_new _ _ _ _ _ = Some _ |- _ => pose proof H as Hw; apply st_new_wf in Hw; [|done..]; apply st_new_inv in H as (-> & _) end.
    match goal with H : pl_share_register _ _ = Some _ |- _ => apply new_pool_facts in H as (A & B & C & D); [|exact Hw] end.
    split; [done|]. split; [done|]. split; [|split; [|done]].
    + intros t. rewrite A. apply st_zero_reserve, beside_zeros.
    + intros a. rewrite B. cbn [pl_share_of]. unfold st_share_of. cbn [st_shares]. now rewrite lookup_empty.
  - left. split; [|done]. apply ex_execute_moved in Hx as (_ & Hs & _); [|done..|eapply ex_wf_account; eauto]. exact (swap_length _ _ Hs).
  - left. split; [|done].
    match goal with H : va_take _ _ _ = Some _ |- _ => apply va_take_spec in H as (_ & Hv & _); [|eapply ex_wf_account; eauto|apply ac_new_disjoint] end.
    apply ex_execute_moved in Hx as (_ & Hs & _); [|done|done|apply Hv]. exact (swap_length _ _ Hs).
  - left. split; [|done]. apply ex_execute_moved in Hx as (_ & Hs & _); [|done..|eapply ex_wf_account; eauto]. exact (swap_length _ _ Hs).
  - left. split; [|done]. apply ex_execute_moved in Hx as (_ & Hs & _); [|done..|eapply ex_wf_account; eauto]. exact (swap_length _ _ Hs).
Qed.
Lemma zap_length e s l : forall c m c' m', ex_zap_loop c e s m l = Some (c', m') -> length (ex_pools c') = length (ex_pools c).
Proof.
  induction l as [|i l IH]; intros c m c' m' H; cbn [ex_zap_loop] in H; [now injection H as <- <-|].
  bnd H q Hq. destruct q as [c1 m1]. apply ex_zap_one_inv in Hq as (p & p' & am & sh & _ & _ & _ & _ & ->). apply IH in H. rewrite H.
  ex_cbn. apply insert_length.
Qed.
Lemma happens_length w ev now c c' : ex_wf now c -> happens w ev now c c' -> adds_pool ev = false -> length (ex_pools c') = length (ex_pools c).
Proof.
  intros Hwf H Hev'.
  destruct H as [|e x ps c' Hev He HW Hc H|e s x m ps c' He HW H|e s t x c' He H|i id s r x ret c' Hi' H|i e act s pid x fee ok ps c' He Hi' H|o c' H].
  - done.
  - subst. apply ex_call_length in H as [[H _]|(p & H & _)]; [done|congruence|done|done].
  - subst. unfold ex_ft_on_transfer in H. cbv zeta in H. grd H. grd H. destruct m as [|r l echo su rc skip|r l infos skip].
    + grd H. bnd H c1 H1. injection H as <- <-. now apply ex_deposit_inv in H1 as (acc & acc' & _ & _ & _ & _ & ->).
    + grd H. grd H. bnd H u Hu. bnd H d Hd. destruct d as [c1 outs]. grd H. injection H as <- <-. apply ex_direct_moved in Hd as [Hs _]; auto. now apply swap_length.
    + bnd H c1 H1. injection H as <- <-. apply ex_hot_zap_inv in H1 as (acc & ts & c2 & outs & m & c3 & m' & acc' & _ & _ & _ & _ & _ & _ & Hd & _ & Hz & _ & _ & _ & ->).
      apply ex_direct_moved in Hd as [Hs _]; auto. apply zap_length in Hz. apply swap_length in Hs. ex_cbn. congruence.
  - now destruct H.
  - apply ex_mft_resolve_inv in H as [[-> _]|(bal & _ & _ & _ & H)]; [done|].
    apply ex_mft_transfer_inv in H as (Hne & _ & H). destruct (mft_pool_of id).
    + destruct H as (p & p' & _ & _ & _ & _ & ->). ex_cbn. apply insert_length.
    + now destruct H as (sa & sa' & ra & ra' & Hsa & Hra & Hw & Hdp & _ & _ & ->).
  - apply ex_callback_shadow_inv in H as [(_ & _ & -> & ->)|[(_ & Hc & -> & acc & acc1 & Ha & Hu & _ & ->)|(_ & acc & acc1 & Ha & Hu & _ & -> & ->)]]; done.
  - unfold ex_oracle in H. bnd H r Hr. now injection H as <-.
Qed.
