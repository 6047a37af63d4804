(** * The exchange: what each method leaves alone *)
From Verif Require Import Base BaseLemmas SimplePool SimplePoolProofs SpecSimple SimplePoolInv StableMath StablePool
  SpecStable StablePoolProofs StablePoolInv Rates Echo Twap Account Pool Exchange SpecExchange AccountProofs PoolFacts
  ExchangeProofs ExchangeInv ExchangeEffect.

(** ** Settings *)
(** A chain of swaps changes pools, volumes and averages only. *)
Lemma ex_pool_swap_frame c e pid ti a to mn r c' out :
  ex_pool_swap c e pid ti a to mn r = Some (c', out) -> pool_frame c c'.
Proof.
  unfold ex_pool_swap. intros H. bnd H c1 Hc1. apply ex_update_twap_frame in Hc1 as (tw & ->). bnd H p Hp. bnd H q Hq. destruct q as [p' o].
  bnd H ii Hii. bnd H io Hio. bnd H v Hv. injection H as <- <-. unfold pool_frame. ex_cbn. split_and!; reflexivity.
Qed.
Lemma ex_pool_swap_by_output_frame c e pid ti a to mx r c' inp :
  ex_pool_swap_by_output c e pid ti a to mx r = Some (c', inp) -> pool_frame c c'.
Proof.
  unfold ex_pool_swap_by_output. intros H. bnd H c1 Hc1. apply ex_update_twap_frame in Hc1 as (tw & ->). bnd H p Hp. bnd H q Hq. destruct q as [p' o].
  bnd H ii Hii. bnd H io Hio. bnd H v Hv. injection H as <- <-. unfold pool_frame. ex_cbn. split_and!; reflexivity.
Qed.
Lemma ex_exec_action_frame c e acc r a prev c' acc' x :
  ex_exec_action c e acc r a prev = Some (c', acc', x) -> pool_frame c c'.
Proof.
  unfold ex_exec_action. intros H. destruct a.
  - bnd H amt Hamt. bnd H acc1 H1. bnd H q Hq. destruct q as [c1 o]. bnd H acc2 H2. injection H as <- <- <-. eapply ex_pool_swap_frame; eauto.
  - bnd H amt Hamt. bnd H q Hq. destruct q as [c1 o]. injection H as <- <- <-. eapply ex_pool_swap_by_output_frame; eauto.
Qed.
Lemma ex_execute_frame c e acc r l prev skip c' acc' res :
  ex_execute c e acc r l prev skip = Some (c', acc', res) -> pool_frame c c'.
Proof.
  unfold ex_execute. intros H. grd H. grd H. bnd H a0 Ha0. bnd H q Hq. destruct q as [[c1 acc1] x]. bnd H u Hu. injection H as <- <- <-.
  destruct (is_swap a0).
  - clear -Hq. revert c acc prev Hq. induction l as [|a l IH]; intros c acc prev H; cbn [ex_swap_loop] in H.
    + injection H as <- <- <-. apply pool_frame_refl.
    + bnd H q Hq. destruct q as [[c2 acc2] y]. apply ex_exec_action_frame in Hq. apply IH in H. eapply pool_frame_trans; eauto.
  - clear -Hq. revert Hq. generalize (@None AccountId) as pi. intros pi Hq.
    revert c acc prev pi Hq. induction l as [|a l IH]; intros c acc prev pi H; cbn [ex_output_loop] in H.
    + bnd H q Hq. injection H as <- <- <-. apply pool_frame_refl.
    + bnd H acc0 Hacc0. bnd H q Hq. destruct q as [[c2 acc2] y]. apply ex_exec_action_frame in Hq. apply IH in H. eapply pool_frame_trans; eauto.
Qed.
Lemma ex_direct_frame c e t x r l skip c' outs : ex_direct c e t x r l skip = Some (c', outs) -> pool_frame c c'.
Proof. intros H. apply ex_direct_inv in H as (va & prev & va' & res & _ & H & _). eapply ex_execute_frame; eauto. Qed.
Lemma ex_zap_loop_frame e s l : forall c m c' m', ex_zap_loop c e s m l = Some (c', m') -> pool_frame c c'.
Proof.
  induction l as [|i l IH]; intros c m c' m' H; cbn [ex_zap_loop] in H; [injection H as <- <-; apply pool_frame_refl|].
  bnd H q Hq. destruct q as [c1 m1]. apply ex_zap_one_inv in Hq as (p & p' & am & sh & _ & _ & _ & _ & ->).
  apply IH in H. eapply pool_frame_trans; [|exact H]. unfold pool_frame. ex_cbn. split_and!; reflexivity.
Qed.
(** Settings and rates are the same. *)
Definition same_settings (c c' : Exchange) : Prop := ex_cfg c' = ex_cfg c /\ ex_rates c' = ex_rates c /\ ex_self c' = ex_self c.
Lemma pool_same_settings c c' a acc : pool_frame c c' -> same_settings c (ex_put c' a acc).
Proof. intros (A & B & _ & _ & E). unfold same_settings. ex_cbn. auto. Qed.
Lemma ex_ft_on_transfer_settings c e s x m c' ps : ex_ft_on_transfer c e s x m = Some (c', ps) -> same_settings c c'.
Proof.
  unfold ex_ft_on_transfer. intros H. cbv zeta in H. grd H. grd H. destruct m as [|r l echo su rc skip|r l infos skip].
  - grd H. bnd H c1 H1. injection H as <- <-. apply ex_deposit_inv in H1 as (acc & acc' & _ & _ & _ & _ & ->). unfold same_settings. ex_cbn. auto.
  - grd H. grd H. bnd H u Hu. bnd H d Hd. destruct d as [c1 outs]. grd H. injection H as <- <-. apply ex_direct_frame in Hd as (A & B & _ & _ & E).
    unfold same_settings. auto.
  - bnd H c1 H1. injection H as <- <-. apply ex_hot_zap_inv in H1 as (acc & ts & c2 & outs & m & c3 & m' & acc' & _ & _ & _ & _ & _ & _ & Hd & _ & Hz & _ & _ & _ & ->).
    apply pool_same_settings. eapply pool_frame_trans; [eapply ex_direct_frame|eapply ex_zap_loop_frame]; eauto.
Qed.
Ltac ss := unfold same_settings; ex_cbn; auto.
Lemma ex_mft_transfer_settings c id s r am c' x : ex_mft_transfer c id s r am = Some (c', x) -> same_settings c c'.
Proof.
  intros H. apply ex_mft_transfer_inv in H as (_ & _ & H). destruct (mft_pool_of id).
  - destruct H as (p & p' & _ & _ & _ & _ & ->). ss.
  - destruct H as (sa & sa' & ra & ra' & _ & _ & _ & _ & _ & _ & ->). ss.
Qed.
Lemma ex_execute_actions_settings c e l r skip c' res : ex_execute_actions c e l r skip = Some (c', res) -> same_settings c c'.
Proof.
  intros H. apply ex_execute_actions_inv in H as (acc & c1 & acc' & _ & _ & _ & _ & Hx & _ & ->).
  apply pool_same_settings. eapply ex_execute_frame; eauto.
Qed.
Lemma ex_call_settings c e x c' ps : is_settings x = false -> ex_call c e x = Some (c', ps) -> same_settings c c'.
Proof.
  intros Es H. destruct x; try discriminate Es; clear Es; cbn [ex_call] in H;
    try (apply quiet_inv in H as [H ->]); try (apply quiet2_inv in H as (res & H & ->)); try (apply keep2_inv in H as (res & H)).
  - apply ex_add_simple_pool_inv in H as (p & _ & _ & _ & H). apply ex_add_pool_inv in H as (p' & v & _ & -> & _). ss.
  - apply ex_add_stable_pool_inv in H as (p & _ & _ & _ & _ & H). apply ex_add_pool_inv in H as (p' & v & _ & -> & _). ss.
  - eapply ex_execute_actions_settings; eauto.
  - apply ex_execute_in_va_inv in H as (acc & acc1 & va & c1 & va' & res' & acc2 & _ & _ & _ & _ & Hx & _ & _ & _ & ->).
    apply pool_same_settings. eapply ex_execute_frame; eauto.
  - apply ex_swap_inv in H as [_ H]. eapply ex_execute_actions_settings; eauto.
  - apply ex_swap_by_output_inv in H as [_ H]. eapply ex_execute_actions_settings; eauto.
  - apply ex_add_liquidity_inv in H as (tw & p & p' & taken & acc & acc' & _ & _ & _ & _ & _ & _ & _ & _ & _ & _ & ->). ss.
  - apply ex_add_stable_liquidity_inv in H as (tw & p & p' & acc & acc' & _ & _ & _ & _ & _ & _ & _ & _ & _ & _ & ->). ss.
  - apply ex_remove_liquidity_inv in H as (tw & p & p' & acc & acc' & _ & _ & _ & _ & _ & _ & _ & _ & _ & ->). ss.
  - apply ex_remove_by_tokens_inv in H as (tw & p & p' & acc & acc' & _ & _ & _ & _ & _ & _ & _ & _ & _ & ->). ss.
  - apply ex_register_tokens_inv in H as (acc & _ & _ & _ & _ & ->). ss.
  - apply ex_unregister_tokens_inv in H as (acc & acc' & _ & _ & _ & _ & _ & ->). ss.
  - apply ex_withdraw_inv in H as (acc & x & acc1 & acc2 & _ & _ & _ & _ & _ & _ & _ & _ & _ & -> & _). ss.
  - apply ex_claim_inv in H as (x & _ & _ & _ & _ & _ & -> & _). ss.
  - apply ex_mft_register_inv in H as (pid & p & p' & _ & _ & _ & _ & _ & ->). ss.
  - apply ex_mft_unregister_inv in H as (pid & p & p' & _ & _ & _ & _ & _ & _ & ->). ss.
  - apply ex_mft_transfer_free_inv in H as (_ & _ & H). eapply ex_mft_transfer_settings; eauto.
  - apply ex_mft_transfer_call_inv in H as (x & _ & _ & H & _). eapply ex_mft_transfer_settings; eauto.
  - apply ex_donate_share_inv in H as (p & x & p1 & p2 & _ & _ & _ & _ & _ & _ & _ & [(-> & _)|(acc & _ & _ & _ & ->)]); ss.
  - apply ex_donate_token_inv in H as (acc & bal & x & acc1 & acc2 & oa & oa' & _ & _ & _ & _ & _ & _ & _ & _ & _ & _ & _ & ->). ss.
  - apply ex_shadow_action_inv in H as (acc & p & mx & x & _ & _ & _ & _ & _ & _ & _ & [(_ & acc' & qs & _ & _ & _ & -> & _)|(_ & -> & _)]); ss.
  - apply ex_burrow_liquidation_inv in H as
      (pid & p & va & va1 & va2 & la & p' & out & la' & seed & avail & _ & _ & _ & _ & _ & _ & _ & _ & _ & _ & _ & _ & _ & _ & _ & -> & _). ss.
  - apply ex_storage_deposit_inv in H as (_ & _ & [(_ & _ & -> & _)|[(_ & _ & H & _)|(_ & H & _)]]); [ss| |];
      apply ex_register_account_inv in H as [_ ->]; ss.
  - apply ex_storage_withdraw_inv in H as (acc & y & _ & _ & _ & _ & _ & _ & _ & _ & -> & _). ss.
  - apply ex_storage_unregister_inv in H as (_ & _ & [(_ & -> & _)|(acc & _ & _ & _ & _ & -> & _)]); ss.
  - unfold ex_modify_total_fee in H. grd H. grd H. bnd H p Hp. injection H as <-. ss.
  - apply ex_remove_fee_liquidity_inv in H as (p & p' & out & acc & acc' & _ & _ & _ & _ & _ & _ & _ & ->). ss.
  - apply ex_withdraw_owner_inv in H as (acc & acc' & _ & _ & _ & _ & _ & -> & _). ss.
  - unfold ex_ramp in H. grd H. bnd H p Hp. bnd H p' Hp'. injection H as <-. ss.
  - unfold ex_stop_ramp in H. grd H. bnd H p Hp. bnd H p' Hp'. injection H as <-. ss.
Qed.
Lemma recredit_settings c e s t x c' : recredit c e s t x c' -> same_settings c c'.
Proof. intros H. destruct H; ss. Qed.

(** ** Unwrapping *)
Definition wnear_promise (c : Exchange) (p : Promise) : Prop :=
  match p with PUnwrap t _ _ => cf_wnear (ex_cfg c) = Some t | PRetrieve _ _ _ => False | _ => True end.
Lemma ex_send_wnear c r t x s : wnear_promise c (ex_send c r t x s).
Proof.
  unfold ex_send. destruct (bool_decide _ && _) eqn:E; [|done]. apply andb_true_iff in E as [E _]. now apply bool_decide_eq_true in E.
Qed.
Lemma check_storage_wnear c e ps : check_storage e = Some ps -> Forall (wnear_promise c) ps.
Proof. unfold check_storage. intros H. bnd H r Hr. injection H as <-. destruct (0 <? r); repeat constructor. Qed.
Lemma refund_wnear c a x : Forall (wnear_promise c) (refund_to a x).
Proof. unfold refund_to. destruct (0 <? x); repeat constructor. Qed.
Lemma ex_ft_on_transfer_wnear c e s x m c' ps : ex_ft_on_transfer c e s x m = Some (c', ps) -> Forall (wnear_promise c) ps.
Proof.
  intros H. pose proof (ex_ft_on_transfer_settings _ _ _ _ _ _ _ H) as (Hc & _).
  unfold ex_ft_on_transfer in H. cbv zeta in H. grd H. grd H. destruct m as [|r l echo su rc skip|r l infos skip].
  - grd H. bnd H c1 H1. injection H as <- <-. constructor.
  - grd H. grd H. bnd H u Hu. bnd H d Hd. destruct d as [c1 outs]. grd H. injection H as <- <-.
    apply Forall_fmap, Forall_forall. intros [t y] _. unfold compose. cbn [fst snd]. destruct echo; [done|].
    pose proof (ex_send_wnear c1 (default s rc) t y su) as Hw. unfold wnear_promise in *. now rewrite Hc in Hw.
  - bnd H c1 H1. injection H as <- <-. constructor.
Qed.
Definition is_retrieve (x : Call) : bool := match x with CRetrieve _ _ => true | _ => false end.
Ltac fsing := repeat (apply Forall_cons; split; [first [apply ex_send_wnear|exact I]|]); apply Forall_nil; exact I.
Lemma settings_promises c e x c' ps : is_settings x = true -> is_retrieve x = false -> ex_call c e x = Some (c', ps) -> ps = [].
Proof.
  intros Hs Hr H. destruct x; try discriminate Hs; try discriminate Hr; cbn [ex_call] in H; now apply quiet_inv in H as [_ ->].
Qed.
Lemma ex_call_wnear c e x c' ps : is_retrieve x = false -> ex_call c e x = Some (c', ps) -> Forall (wnear_promise c) ps.
Proof.
  intros Hr H. destruct (is_settings x) eqn:Es; [apply settings_promises in H as ->; auto|].
  destruct x; try discriminate Es; clear Es Hr; cbn [ex_call] in H;
    try (apply quiet_inv in H as [H ->]; apply Forall_nil; exact I); try (apply quiet2_inv in H as (res & H & ->); apply Forall_nil; exact I); try (apply keep2_inv in H as (res & H)).
  - apply ex_add_simple_pool_inv in H as (p & _ & _ & _ & H). apply ex_add_pool_inv in H as (p' & v & _ & _ & _ & H). eapply check_storage_wnear; eauto.
  - apply ex_add_stable_pool_inv in H as (p & _ & _ & _ & _ & H). apply ex_add_pool_inv in H as (p' & v & _ & _ & _ & H). eapply check_storage_wnear; eauto.
  - apply ex_add_liquidity_inv in H as (tw & p & p' & taken & acc & acc' & _ & _ & _ & _ & _ & _ & _ & _ & _ & H & _). eapply check_storage_wnear; eauto.
  - apply ex_add_stable_liquidity_inv in H as (tw & p & p' & acc & acc' & _ & _ & _ & _ & _ & _ & _ & _ & _ & H & _). eapply check_storage_wnear; eauto.
  - apply ex_withdraw_inv in H as (acc & x & acc1 & acc2 & _ & _ & _ & _ & _ & _ & _ & _ & _ & _ & ->). fsing.
  - apply ex_claim_inv in H as (x & _ & _ & _ & _ & _ & _ & ->). fsing.
  - apply ex_mft_register_inv in H as (pid & p & p' & _ & _ & _ & _ & H & _). eapply check_storage_wnear; eauto.
  - apply ex_mft_unregister_inv in H as (pid & p & p' & _ & _ & _ & _ & _ & -> & _). apply refund_wnear.
  - apply ex_mft_transfer_call_inv in H as (x & _ & _ & _ & ->). fsing.
  - apply ex_donate_share_inv in H as (p & x & p1 & p2 & _ & _ & _ & _ & _ & _ & _ & [(_ & [->| ->])|(acc & -> & _)]); fsing.
  - apply ex_shadow_action_inv in H as (acc & p & mx & x & _ & _ & _ & _ & _ & _ & _ & [(_ & acc' & qs & _ & _ & Hq & _ & ->)|(_ & _ & ->)]); [|fsing].
    apply Forall_app. split; [eapply check_storage_wnear; eauto|fsing].
  - apply ex_burrow_liquidation_inv in H as
      (pid & p & va & va1 & va2 & la & p' & out & la' & seed & avail & _ & _ & _ & _ & _ & _ & _ & _ & _ & _ & _ & _ & _ & _ & _ & _ & ->).
    destruct (0 <? seed); fsing.
  - apply ex_storage_deposit_inv in H as (_ & _ & [(_ & _ & _ & ->)|[(_ & _ & _ & _ & ->)|(_ & _ & ->)]]); [apply refund_wnear|apply refund_wnear|fsing].
  - apply ex_storage_withdraw_inv in H as (acc & y & _ & _ & _ & _ & _ & _ & _ & _ & _ & ->). fsing.
  - apply ex_storage_unregister_inv in H as (_ & _ & [(_ & _ & ->)|(acc & _ & _ & _ & _ & _ & ->)]); fsing.
  - apply ex_withdraw_owner_inv in H as (acc & acc' & _ & _ & _ & _ & _ & _ & ->). fsing.
Qed.
Ltac settings_wnear H :=
  repeat match type of H with
  | mbind _ _ = Some _ => let y := fresh "y" in let Hy := fresh "Hy" in apply bind_Some in H as (y & Hy & H)
  | (if ?b then _ else _) = Some _ => destruct b
  end;
  first [injection H as <-|injection H as <- <-|discriminate H]; reflexivity.
(** Only the owner's modify_wnear_id changes the wrapped-NEAR token. *)
Lemma ex_call_keeps_wnear c e x c' ps :
  (match x with CModifyWnear _ => False | _ => True end) -> ex_call c e x = Some (c', ps) -> cf_wnear (ex_cfg c') = cf_wnear (ex_cfg c).
Proof.
  intros Hx H. destruct (is_settings x) eqn:Es; [|apply ex_call_settings in H as (-> & _); done].
  destruct x; try discriminate Es; try contradiction; clear Es Hx; cbn [ex_call] in H;
    try (apply quiet_inv in H as [H ->]).
  all: try (unfold ex_register_twap, ex_unregister_twap, ex_modify_interval, ex_sync_twap, ex_set_owner,
       ex_extend_guardians, ex_remove_guardians, ex_extend_postfix, ex_remove_postfix, ex_modify_farm, ex_modify_burrow, ex_modify_wnear,
       ex_change_state, ex_extend_whitelist, ex_remove_whitelist, ex_extend_frozen, ex_remove_frozen, ex_put_referral, ex_remove_referral,
       ex_modify_admin_fee, ex_rate_admin, ex_add_limit, ex_update_limit, ex_remove_limit, ex_extend_echo, ex_remove_echo in H; settings_wnear H).
  apply ex_retrieve_inv in H as (_ & _ & -> & _). done.
Qed.

(** ** Case analysis over all calls that are not settings *)
Ltac call_inv H :=
  lazymatch type of H with
  | ex_add_simple_pool _ _ _ _ = Some _ =>
      let p := fresh "p" in let p' := fresh "p'" in let v := fresh "v" in
      apply ex_add_simple_pool_inv in H as (p & ? & ? & ? & H); apply ex_add_pool_inv in H as (p' & v & ? & -> & ? & ?)
  | ex_add_stable_pool _ _ _ _ _ _ _ = Some _ =>
      let p := fresh "p" in let p' := fresh "p'" in let v := fresh "v" in
      apply ex_add_stable_pool_inv in H as (p & ? & ? & ? & ? & H); apply ex_add_pool_inv in H as (p' & v & ? & -> & ? & ?)
  | ex_swap _ _ _ _ _ = Some _ => apply ex_swap_inv in H as [? H]; call_inv H
  | ex_swap_by_output _ _ _ _ _ = Some _ => apply ex_swap_by_output_inv in H as [? H]; call_inv H
  | ex_execute_actions _ _ _ _ _ = Some _ =>
      let acc := fresh "acc" in let c1 := fresh "c1" in let acc' := fresh "acc'" in let Hx := fresh "Hx" in
      apply ex_execute_actions_inv in H as (acc & c1 & acc' & ? & ? & ? & ? & Hx & ? & ->)
  | ex_execute_in_va _ _ _ _ _ _ = Some _ =>
      let acc := fresh "acc" in let acc1 := fresh "acc1" in let va := fresh "va" in let c1 := fresh "c1" in let va' := fresh "va'" in
      let res := fresh "res" in let acc2 := fresh "acc2" in let Hx := fresh "Hx" in
      apply ex_execute_in_va_inv in H as (acc & acc1 & va & c1 & va' & res & acc2 & ? & ? & ? & ? & Hx & ? & ? & ? & ->)
  | ex_add_liquidity _ _ _ _ _ = Some _ =>
      apply ex_add_liquidity_inv in H as (?tw & ?p & ?p' & ?taken & ?acc & ?acc' & ? & ? & ? & ? & ? & ? & ? & ? & ? & ? & ->)
  | ex_add_stable_liquidity _ _ _ _ _ = Some _ =>
      apply ex_add_stable_liquidity_inv in H as (?tw & ?p & ?p' & ?acc & ?acc' & ? & ? & ? & ? & ? & ? & ? & ? & ? & ? & ->)
  | ex_remove_liquidity _ _ _ _ _ = Some _ =>
      apply ex_remove_liquidity_inv in H as (?tw & ?p & ?p' & ?acc & ?acc' & ? & ? & ? & ? & ? & ? & ? & ? & ? & ->)
  | ex_remove_by_tokens _ _ _ _ _ = Some _ =>
      apply ex_remove_by_tokens_inv in H as (?tw & ?p & ?p' & ?acc & ?acc' & ? & ? & ? & ? & ? & ? & ? & ? & ? & ->)
  | ex_register_tokens _ _ _ = Some _ => apply ex_register_tokens_inv in H as (?acc & ? & ? & ? & ? & ->)
  | ex_unregister_tokens _ _ _ = Some _ => apply ex_unregister_tokens_inv in H as (?acc & ?acc' & ? & ? & ? & ? & ? & ->)
  | ex_withdraw _ _ _ _ _ _ = Some _ => apply ex_withdraw_inv in H as (?acc & ?x & ?acc1 & ?acc2 & ? & ? & ? & ? & ? & ? & ? & ? & ? & -> & ->)
  | ex_claim_lostfound _ _ _ = Some _ => apply ex_claim_inv in H as (?x & ? & ? & ? & ? & ? & -> & ->)
  | ex_mft_register _ _ _ _ = Some _ => apply ex_mft_register_inv in H as (?pid & ?p & ?p' & ? & ? & ? & ? & ? & ->)
  | ex_mft_unregister _ _ _ = Some _ => apply ex_mft_unregister_inv in H as (?pid & ?p & ?p' & ? & ? & ? & ? & ? & -> & ->)
  | ex_mft_transfer_call_free _ _ _ _ _ = Some _ => apply ex_mft_transfer_free_inv in H as (? & ? & H); call_inv H
  | ex_mft_transfer_call _ _ _ _ _ = Some _ => apply ex_mft_transfer_call_inv in H as (?x & ? & ? & H & ->); call_inv H
  | ex_mft_transfer _ ?i _ _ _ = Some _ =>
      apply ex_mft_transfer_inv in H as (? & ? & H); let E := fresh "Emft" in destruct (mft_pool_of i) eqn:E;
      [destruct H as (?p & ?p' & ? & ? & ? & ? & ->)|destruct H as (?sa & ?sa' & ?ra & ?ra' & ? & ? & ? & ? & ? & ? & ->)]
  | ex_donate_share _ _ _ _ _ = Some _ =>
      apply ex_donate_share_inv in H as (?p & ?x & ?p1 & ?p2 & ? & ? & ? & ? & ? & ? & ? & [(-> & ?)|(?acc & -> & ? & ? & ->)])
  | ex_donate_token _ _ _ _ _ = Some _ =>
      apply ex_donate_token_inv in H as (?acc & ?bal & ?x & ?acc1 & ?acc2 & ?oa & ?oa' & ? & ? & ? & ? & ? & ? & ? & ? & ? & ? & ? & ->)
  | ex_shadow_action _ _ _ _ _ = Some _ =>
      apply ex_shadow_action_inv in H as (?acc & ?p & ?mx & ?x & ? & ? & ? & ? & ? & ? & ? & [(? & ?acc' & ?qs & ? & ? & ? & -> & ->)|(? & -> & ->)])
  | ex_burrow_liquidation _ _ _ _ _ _ _ = Some _ =>
      apply ex_burrow_liquidation_inv in H as
        (?pid & ?p & ?va & ?va1 & ?va2 & ?la & ?p' & ?out & ?la' & ?seed & ?avail & ? & ? & ? & ? & ? & ? & ? & ? & ? & ? & ? & ? & ? & ? & ? & -> & ->)
  | ex_storage_deposit _ _ _ _ = Some _ =>
      apply ex_storage_deposit_inv in H as (? & ? & [(? & ? & -> & ->)|[(? & ? & H & ? & ->)|(? & H & ->)]]);
      [|apply ex_register_account_inv in H as [? ->]..]
  | ex_storage_withdraw _ _ _ = Some _ => apply ex_storage_withdraw_inv in H as (?acc & ?y & ? & ? & ? & ? & ? & ? & ? & ? & -> & ->)
  | ex_storage_unregister _ _ = Some _ =>
      apply ex_storage_unregister_inv in H as (? & ? & [(? & -> & ->)|(?acc & ? & ? & ? & ? & -> & ->)])
  | ex_modify_total_fee _ _ _ _ = Some _ =>
      let p := fresh "p" in unfold ex_modify_total_fee in H; grd H; grd H; let Hp := fresh "Hp" in bnd H p Hp; injection H as <-
  | ex_remove_fee_liquidity _ _ _ _ _ = Some _ =>
      apply ex_remove_fee_liquidity_inv in H as (?p & ?p' & ?out & ?acc & ?acc' & ? & ? & ? & ? & ? & ? & ? & ->)
  | ex_withdraw_owner _ _ _ _ _ = Some _ => apply ex_withdraw_owner_inv in H as (?acc & ?acc' & ? & ? & ? & ? & ? & -> & ->)
  | ex_ramp _ _ _ _ _ = Some _ =>
      let p := fresh "p" in let p' := fresh "p'" in unfold ex_ramp in H; grd H; let Hp := fresh "Hp" in let Hp' := fresh "Hp" in bnd H p Hp; bnd H p' Hp'; injection H as <-
  | ex_stop_ramp _ _ _ = Some _ =>
      let p := fresh "p" in let p' := fresh "p'" in unfold ex_stop_ramp in H; grd H; let Hp := fresh "Hp" in let Hp' := fresh "Hp" in bnd H p Hp; bnd H p' Hp'; injection H as <-
  end.
(** All calls [x] that are not settings, with the effect of each spelled out. *)
Ltac call_cases x Es H :=
  destruct x; try discriminate Es; clear Es; cbn [ex_call] in H;
  try (apply quiet_inv in H as [H ->]); try (apply quiet2_inv in H as (?res & H & ->)); try (apply keep2_inv in H as (?res & H));
  call_inv H.

Lemma ex_call_lost c e x c' ps :
  (match x with CClaimLostfound _ => False | _ => True end) -> ex_call c e x = Some (c', ps) -> ex_lost c' = ex_lost c.
Proof.
  intros Hx H. destruct (is_settings x) eqn:Es; [apply settings_call in H as [Hs _]; [apply Hs|done]|].
  call_cases x Es H; try contradiction Hx; ex_cbn; try reflexivity.
  all: apply ex_execute_frame in Hx0 as (_ & _ & _ & Hl & _); exact Hl.
Qed.
