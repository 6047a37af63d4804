(** * Frozen tokens: proofs *)
From Verif Require Import Base BaseLemmas SimplePool SimplePoolProofs SpecSimple SimplePoolInv StableMath StablePool
  SpecStable StablePoolProofs StablePoolInv Rates Echo Twap Account Pool Exchange SpecExchange AccountProofs PoolFacts
  ExchangeProofs ExchangeInv ExchangeEffect ExchangeFrames SpecWorld WorldProofs SpecSwap SwapProofs SpecHistory HistoryProofs SpecAccess AccessProofs.

(** ** What the guard refuses *)
Lemma named_tokens l t : named l t <-> t ∈ act_tokens l.
Proof.
  unfold named, act_tokens. rewrite elem_of_list_In, in_flat_map. split.
  - intros (a & Ha & H). exists a. rewrite <- elem_of_list_In. split; [done|]. destruct H as [<-|<-]; cbn [In]; auto.
  - intros (a & Ha & [H|[H|[]]]); exists a; rewrite elem_of_list_In; auto.
Qed.
Lemma execute_frozen c e acc r l prev skip c' acc' res :
  ex_execute c e acc r l prev skip = Some (c', acc', res) -> none_frozen c (act_tokens l).
Proof. unfold ex_execute. intros H. grd H. grd H. now apply no_frozen_inv. Qed.
Lemma execute_unnamed c e acc r l prev skip c' acc' res t :
  ex_execute c e acc r l prev skip = Some (c', acc', res) -> t ∈ cf_frozen (ex_cfg c) -> ~ named l t.
Proof. intros H Ht Hn. apply execute_frozen in H. apply named_tokens in Hn. now apply (H t). Qed.
Lemma frozen_pool c pid p t : ex_pool c pid = Some p -> none_frozen c (pl_tokens p) -> t ∈ cf_frozen (ex_cfg c) -> ~ in_pool c pid t.
Proof. intros Hp Hn Ht (q & Hq & Hin). rewrite Hp in Hq. injection Hq as <-. now apply (Hn t). Qed.
Lemma frozen_call c e x t : t ∈ cf_frozen (ex_cfg c) -> involves c x t -> ex_call c e x = None.
Proof.
  intros Ht Hx. destruct (ex_call c e x) as [[c' ps]|] eqn:H; [exfalso|done].
  destruct (is_settings x) eqn:Es; [destruct x; try discriminate Es; contradiction Hx|].
  call_cases x Es H; try contradiction Hx; cbn [involves] in Hx.
  1-4: eapply execute_unnamed; eauto.
  1-4: eapply frozen_pool; eauto.
  - match goal with H : none_frozen c [_] |- _ => apply (H t); [subst; apply elem_of_list_singleton; done|done] end.
  - match goal with H : none_frozen c [_] |- _ => apply (H t); [subst; apply elem_of_list_singleton; done|done] end.
  - destruct Hx as (q & Hq & Hin). match goal with H : shadow_id_to_pool_id _ = Some _ |- _ => rewrite Hq in H; injection H as <- end. eapply frozen_pool; eauto.
Qed.
Lemma infos_tokens_in c l : forall ts i t, ex_infos_tokens c l = Some ts -> i ∈ l -> in_pool c (ai_pool i) t -> t ∈ ts.
Proof.
  induction l as [|j l IH]; intros ts i t H Hi Hin; [now apply elem_of_nil in Hi|]. cbn [ex_infos_tokens] in H. bnd H p Hp. bnd H ts' Hts. injection H as <-.
  apply elem_of_app. apply elem_of_cons in Hi as [->|Hi]; [left|right; eapply IH; eauto].
  destruct Hin as (q & Hq & Hin). rewrite Hp in Hq. now injection Hq as <-.
Qed.
Lemma frozen_transfer c e s x m t : t ∈ cf_frozen (ex_cfg c) -> arrives_about c (e_caller e) m t -> ex_ft_on_transfer c e s x m = None.
Proof.
  intros Ht Hm. destruct (ex_ft_on_transfer c e s x m) as [[c' ps]|] eqn:H; [exfalso|done].
  unfold ex_ft_on_transfer in H. cbv zeta in H. grd H. grd H. destruct m as [|r l echo su rc skip|r l infos skip]; cbn [arrives_about] in Hm.
  - grd H. apply no_frozen_inv in G1. apply (G1 t); [subst; now apply elem_of_list_singleton|done].
  - grd H. grd H. bnd H u Hu. bnd H d Hd. destruct d as [c1 outs]. clear H. apply ex_direct_inv in Hd as (va & prev & va' & res & _ & Hx & _).
    eapply execute_unnamed; eauto.
  - bnd H c1 Hz. apply ex_hot_zap_inv in Hz as (acc & ts & c2 & outs & m & c3 & m' & acc' & _ & _ & _ & Hts & _ & Hf & _).
    apply (Hf t); [|done]. apply elem_of_app. destruct Hm as [Hm|(i & Hi & Hin)]; [left; now apply named_tokens|right; eapply infos_tokens_in; eauto].
Qed.

(** ** What stays *)
Lemma untouched_refl t c : untouched t c c. Proof. done. Qed.
Lemma untouched_trans t a b c : untouched t a b -> untouched t b c -> untouched t a c.
Proof. intros (A & B & C) (D & E & F). split; [|split]; intros; rewrite ?D, ?E, ?F; auto. Qed.
Lemma reserve_put c pid p q t : is_Some (ex_pool c pid) ->
  reserve_at (ex_put_pool c pid p) q t = if pid =? q then pl_reserve p t else reserve_at c q t.
Proof.
  intros [p0 Hp]. unfold reserve_at, ex_pool in *. ex_cbn. destruct (N.eqb_spec pid q) as [E|E].
  - subst q. rewrite list_lookup_insert; [done|]. eapply lookup_lt_Some; eauto.
  - rewrite list_lookup_insert_ne by lia. done.
Qed.
Lemma reserve_same c c' q t : ex_pools c' = ex_pools c -> reserve_at c' q t = reserve_at c q t.
Proof. intros E. unfold reserve_at, ex_pool. now rewrite E. Qed.
Lemma untouched_same t c c' : ex_accounts c' = ex_accounts c -> ex_pools c' = ex_pools c -> ex_lost c' = ex_lost c -> untouched t c c'.
Proof.
  intros A B C. split; [intros a; now apply held_accounts|]. split; [intros q; now apply reserve_same|]. intros a. unfold lost_of. now rewrite C.
Qed.
Lemma untouched_put t c b acc : ac_held acc t = held_by c b t -> untouched t c (ex_put c b acc).
Proof.
  intros H. split; [|split; [intros q; now apply reserve_same|done]]. intros a. rewrite held_by_put. destruct (String.eqb_spec b a) as [E|]; [now subst a|done].
Qed.
Lemma untouched_put_acc t c b acc acc' : ex_account c b = Some acc -> ac_held acc' t = ac_held acc t -> untouched t c (ex_put c b acc').
Proof. intros Ha H. apply untouched_put. now rewrite H, (held_by_account _ _ _ t Ha). Qed.
Lemma untouched_pool t c pid p p' : ex_pool c pid = Some p -> pl_reserve p' t = pl_reserve p t -> untouched t c (ex_put_pool c pid p').
Proof.
  intros Hp H. split; [intros a; now apply held_accounts|]. split; [|done]. intros q. rewrite reserve_put by eauto. destruct (N.eqb_spec pid q) as [E|]; [|done].
  subst q. unfold reserve_at. now rewrite Hp, H.
Qed.
Lemma step_outside rs now p p' t : pl_wf p -> pl_step rs now p p' -> t ∉ pl_tokens p -> pl_reserve p' t = pl_reserve p t.
Proof.
  intros Hw Hs Ht. rewrite (pl_reserve_notin _ _ Ht). apply pl_reserve_notin. apply pl_step_same in Hs as (_ & E & _); [|done]. congruence.
Qed.

Lemma pl_swap_other p rs now ti x to mn f p' out t : pl_wf p -> pl_swap p rs now ti x to mn f false = Some (p', out) ->
  ti <> t -> to <> t -> pl_reserve p' t = pl_reserve p t.
Proof.
  intros Hw H Hi Ho. destruct p as [q|q].
  - apply pl_swap_spec in H as (_ & _ & _ & _ & _ & _ & H & _); [|done]. specialize (H I t). rewrite !only_ne in H by congruence. lia.
  - cbn [pl_swap] in H. bnd H z Hz. destruct z as [q' o]. injection H as <- _. cbn [pl_reserve]. apply st_swap_reserve in Hz as (_ & _ & H); [|done]. apply H; congruence.
Qed.
Lemma pl_output_other p ti x to mx f p' inp t : pl_wf p -> pl_swap_by_output p ti x to mx f false = Some (p', inp) ->
  ti <> t -> to <> t -> pl_reserve p' t = pl_reserve p t.
Proof.
  intros Hw H Hi Ho. apply (pl_swap_by_output_spec _ (mkRateState ∅ ∅ None None) 0) in H as (_ & _ & _ & _ & _ & _ & H & _); [|done]. specialize (H t). rewrite !only_ne in H by congruence. lia.
Qed.
Lemma trades_other e r c ts c' t : trades e r c ts c' -> Forall pl_wf (ex_pools c) -> Forall (fun d => td_in d <> t /\ td_out d <> t) ts ->
  forall pid, reserve_at c' pid t = reserve_at c pid t.
Proof.
  induction 1 as [c c' E|c d c1 ts c' Hd Ht IH]; intros Hw Hn pid; [now apply reserve_same|].
  apply Forall_cons in Hn as [[N1 N2] Hn]. destruct Hd as (p & p' & Hp & E & Hs).
  assert (Hpw : pl_wf p) by (eapply Forall_lookup_1; eauto).
  assert (K : pl_wf p' /\ pl_reserve p' t = pl_reserve p t).
  { destruct Hs as [[mn Hs]|[mx Hs]].
    - split; [|eapply pl_swap_other; eauto]. apply pl_swap_spec in Hs as (Hs & _); [|done]. eapply pl_step_wf; eauto.
    - split; [|eapply pl_output_other; eauto]. apply (pl_swap_by_output_spec _ (mkRateState ∅ ∅ None None) 0) in Hs as (Hs & _); [|done]. eapply pl_step_wf; eauto. }
  destruct K as [Hpw' K]. rewrite IH; [|rewrite E; now apply Forall_insert|done].
  unfold reserve_at, ex_pool in *. rewrite E. destruct (decide (N.to_nat (td_pool d) = N.to_nat pid)) as [En|En].
  - rewrite En in *. rewrite list_lookup_insert by (eapply lookup_lt_Some; eauto). now rewrite Hp.
  - now rewrite list_lookup_insert_ne.
Qed.
Lemma ex_wf_pools now c : ex_wf now c -> Forall pl_wf (ex_pools c).
Proof. intros [H _]. eapply Forall_impl; [exact H|]. intros p. apply pl_reachable_wf. Qed.
Lemma obeys_other l ts t : Forall2 obeys l ts -> ~ named l t -> Forall (fun d => td_in d <> t /\ td_out d <> t) ts /\ paid ts t = 0 /\ got ts t = 0.
Proof.
  induction 1 as [|a d l ts Ho HO IH]; intros Hn; [done|].
  destruct IH as (A & B & C); [intros (b & Hb & H); apply Hn; exists b; split; [now apply elem_of_list_further|done]|].
  destruct Ho as (_ & Hi & Hoo & _).
  assert (td_in d <> t /\ td_out d <> t) as [N1 N2].
  { rewrite Hi, Hoo. split; intros E; apply Hn; exists a; (split; [apply elem_of_list_here|auto]). }
  split; [now apply Forall_cons|]. rewrite paid_cons, got_cons, !only_ne, B, C by done. done.
Qed.
Lemma execute_other c e acc r l prev skip c' acc' res t :
  ex_wf (e_now e) c -> e_now e < 2 ^ 64 -> ac_disjoint acc -> t ∈ cf_frozen (ex_cfg c) ->
  ex_execute c e acc r l prev skip = Some (c', acc', res) -> ac_held acc' t = ac_held acc t /\ untouched t c c'.
Proof.
  intros Hwf HW Hd Ht H. pose proof (execute_unnamed _ _ _ _ _ _ _ _ _ _ _ H Ht) as Hn. pose proof (ex_execute_frame _ _ _ _ _ _ _ _ _ _ H) as (_ & _ & Ha & Hl & _).
  apply (ex_execute_trades (e_now e)) in H as (ts & (T & _ & O & _) & Hh & _); [|done|lia|done|done].
  destruct (obeys_other _ _ _ O Hn) as (A & B & C). split; [specialize (Hh t); lia|].
  split; [intros a; now apply held_accounts|]. split; [|intros a; unfold lost_of; now rewrite Hl].
  eapply trades_other; eauto using ex_wf_pools.
Qed.
Lemma untouched_append t c c' p : ex_pools c' = ex_pools c ++ [p] -> pl_reserve p t = 0 -> ex_accounts c' = ex_accounts c -> ex_lost c' = ex_lost c -> untouched t c c'.
Proof.
  intros E Hp Ha Hl. split; [intros a; now apply held_accounts|]. split; [|intros a; unfold lost_of; now rewrite Hl].
  intros q. unfold reserve_at, ex_pool. rewrite E. destruct (ex_pools c !! N.to_nat q) as [p0|] eqn:Eq.
  - now rewrite (lookup_app_l_Some _ _ _ _ Eq).
  - apply lookup_ge_None in Eq. rewrite lookup_app_r by done. destruct (N.to_nat q - length (ex_pools c))%nat; done.
Qed.
Lemma check_storage_promised t e ps : check_storage e = Some ps -> promised_all t ps = 0.
Proof. unfold check_storage. intros H. bnd H r Hr. injection H as <-. now destruct (0 <? r). Qed.
Lemma transfer_reserve p s r x p' t : pl_share_transfer p s r x = Some p' -> pl_reserve p' t = pl_reserve p t.
Proof. intros H. now apply pl_transfer_any in H as (_ & H & _). Qed.
Lemma no_pool_token c pid p t : ex_pool c pid = Some p -> none_frozen c (pl_tokens p) -> t ∈ cf_frozen (ex_cfg c) -> t ∉ pl_tokens p.
Proof. intros _ Hn Ht Hin. exact (Hn _ Hin Ht). Qed.
Lemma untouched_lost t c a u : u <> t -> untouched t c (ex_set_lost c (lost_remove (ex_lost c) a u).1).
Proof.
  intros Hne. split; [done|]. split; [intros q; now apply reserve_same|]. intros b. unfold lost_of, lost_remove. ex_cbn. cbn [fst].
  destruct (decide (a = b)) as [<-|Hab].
  - case_bool_decide as E; [rewrite lookup_delete|rewrite lookup_insert].
    + destruct (ex_lost c !! a) as [m|]; [|done]. cbn [default from_option] in E. unfold Datatypes.id in E. rewrite <- (lookup_delete_ne m u t) by done. rewrite E. now rewrite lookup_empty.
    + destruct (ex_lost c !! a) as [m|]; cbn [default from_option]; [unfold Datatypes.id; now rewrite lookup_delete_ne|]. now rewrite lookup_delete_ne, lookup_empty.
  - case_bool_decide; [now rewrite lookup_delete_ne|now rewrite lookup_insert_ne].
Qed.
Lemma untouched_liquidity t c pid p p' a acc acc' rs now :
  ex_pool c pid = Some p -> pl_wf p -> pl_step rs now p p' -> t ∉ pl_tokens p -> ex_account c a = Some acc -> ac_held acc' t = ac_held acc t ->
  untouched t c (ex_put (ex_put_pool c pid p') a acc').
Proof.
  intros Hp Hw Hs Ht Ha Hh. apply untouched_trans with (ex_put_pool c pid p').
  - eapply untouched_pool; [exact Hp|]. eapply step_outside; eauto.
  - eapply untouched_put_acc; [exact Ha|done].
Qed.
Lemma untouched_twap t c tw c' : untouched t (ex_set_twap c tw) c' -> untouched t c c'.
Proof. intros H. eapply untouched_trans; [|exact H]. now apply untouched_same. Qed.
Lemma deposit_all_other acc ts xs acc' t : ac_disjoint acc -> NoDup ts -> t ∉ ts -> ac_deposit_all acc ts xs = Some acc' -> ac_held acc' t = ac_held acc t.
Proof. intros Hd Hn Ht H. apply ac_deposit_all_spec in H as (_ & H & _); auto. rewrite H, beside_notin_l by done. lia. Qed.
Lemma withdraw_all_other acc ts xs acc' t : ac_disjoint acc -> NoDup ts -> t ∉ ts -> ac_withdraw_all acc ts xs = Some acc' -> ac_held acc' t = ac_held acc t.
Proof. intros Hd Hn Ht H. apply ac_withdraw_all_spec in H as (_ & H & _); auto. specialize (H t). rewrite beside_notin_l in H by done. lia. Qed.
Lemma ex_call_untouched c e x c' ps t :
  ex_wf (e_now e) c -> e_now e < 2 ^ 64 -> t ∈ cf_frozen (ex_cfg c) -> ~ unchecked c x t -> ex_call c e x = Some (c', ps) ->
  untouched t c c'.
Proof.
  intros Hwf HW Ht Hu H. assert (Hinv : ~ involves c x t) by (intros K; rewrite (frozen_call c e x t Ht K) in H; discriminate H).
  pose proof (ex_call_length _ _ _ _ _ Hwf HW H) as Hlen.
  destruct (is_settings x) eqn:Es; [apply settings_call in H as [(_ & Hp & Ha & Hl & _) _]; [now apply untouched_same|done]|].
  assert (Hacc : forall a acc, ex_account c a = Some acc -> ac_disjoint acc) by (intros; eapply ex_wf_account; eauto).
  call_cases x Es H; cbn [involves unchecked] in *; try (apply untouched_same; reflexivity).
  1-2: destruct Hlen as [[_ Hlen]|(q & _ & Hq & Hr & _)]; [discriminate Hlen|]; now apply (untouched_append _ _ _ q).
  1,3,4: apply (execute_other _ _ _ _ _ _ _ _ _ _ t) in Hx as [Hh Hx]; eauto; eapply untouched_trans; [exact Hx|]; apply untouched_put;
    destruct Hx as (Hx & _); rewrite Hx, Hh; symmetry; now apply held_by_account.
  - match goal with H : va_take _ _ _ = Some _ |- _ =>
      pose proof (va_take_legacy _ _ _ _ _ H ac_new_legacy) as Hleg; apply va_take_spec in H as (Hf1 & Hf2 & Hh1 & Hh2); [|eauto|apply ac_new_disjoint] end.
    pose proof (ex_execute_legacy _ _ _ _ _ _ _ _ _ _ Hx Hleg) as Hleg'.
    apply (execute_other _ _ _ _ _ _ _ _ _ _ t) in Hx as [Hh Hx]; auto; [|apply Hf2]. eapply untouched_trans; [exact Hx|]; apply untouched_put.
    destruct Hx as (Hx & _). rewrite Hx. match goal with H : ex_account c _ = Some acc |- _ => rewrite (held_by_account _ _ _ t H) end.
    match goal with H : ac_deposit_list _ _ = Some _ |- _ => apply ac_deposit_list_spec in H as (_ & Hh3); [|apply Hf1] end.
    match goal with H : _ = va_out va' |- _ => rewrite H in Hh3 end. rewrite Hh3, (va_out_held _ _ Hleg'), Hh, Hh2, ac_new_held. specialize (Hh1 t). lia.
  - assert (Hpw : pl_wf p) by (eapply pl_reachable_wf, ex_wf_pool; eauto). assert (Hin : t ∉ pl_tokens p) by (eapply no_pool_token; eauto).
    match goal with H : pl_add_liquidity _ _ _ _ = Some _ |- _ => apply (pl_add_spec _ (ex_rates c) (e_now e)) in H as (Hst & _); [|done] end.
    pose proof (pl_step_same _ _ _ _ Hpw Hst) as (_ & Hts & _). apply untouched_twap with tw.
    change (untouched t (ex_set_twap c tw) (ex_put (ex_put_pool (ex_set_twap c tw) pid p') (e_caller e) acc')).
    eapply untouched_liquidity; eauto. eapply withdraw_all_other; [eauto|apply (pl_wf_nodup _ Hpw)|exact Hin|]. rewrite <- Hts. eassumption.
  - assert (Hpw : pl_wf p) by (eapply pl_reachable_wf, ex_wf_pool; eauto). assert (Hin : t ∉ pl_tokens p) by (eapply no_pool_token; eauto).
    match goal with H : pl_add_stable_liquidity _ _ _ _ _ _ _ _ = Some _ |- _ => apply pl_add_stable_spec in H as (Hst & _); [|done] end.
    pose proof (pl_step_same _ _ _ _ Hpw Hst) as (_ & Hts & _). apply untouched_twap with tw.
    change (untouched t (ex_set_twap c tw) (ex_put (ex_put_pool (ex_set_twap c tw) pid p') (e_caller e) acc')).
    eapply untouched_liquidity; eauto. eapply withdraw_all_other; [eauto|apply (pl_wf_nodup _ Hpw)|exact Hin|]. rewrite <- Hts. eassumption.
  - assert (Hpw : pl_wf p) by (eapply pl_reachable_wf, ex_wf_pool; eauto). assert (Hin : t ∉ pl_tokens p) by (eapply no_pool_token; eauto).
    match goal with H : pl_remove_liquidity _ _ _ _ _ = Some _ |- _ => apply (pl_remove_spec _ (ex_rates c) (e_now e)) in H as (Hst & _); [|done] end.
    pose proof (pl_step_same _ _ _ _ Hpw Hst) as (_ & Hts & _). apply untouched_twap with tw.
    eapply (untouched_liquidity t (ex_set_twap c tw)); eauto. eapply deposit_all_other; [eauto|apply (pl_wf_nodup _ Hpw)|exact Hin|]. rewrite <- Hts. eassumption.
  - assert (Hpw : pl_wf p) by (eapply pl_reachable_wf, ex_wf_pool; eauto). assert (Hin : t ∉ pl_tokens p) by (eapply no_pool_token; eauto).
    match goal with H : pl_remove_by_tokens _ _ _ _ _ _ _ _ = Some _ |- _ => apply pl_remove_tokens_spec in H as (Hst & _); [|done] end.
    pose proof (pl_step_same _ _ _ _ Hpw Hst) as (_ & Hts & _). apply untouched_twap with tw.
    eapply (untouched_liquidity t (ex_set_twap c tw)); eauto. eapply deposit_all_other; [eauto|apply (pl_wf_nodup _ Hpw)|exact Hin|]. rewrite <- Hts. eassumption.
  - eapply untouched_put_acc; [eassumption|]. now apply ac_register_spec; eauto.
  - eapply untouched_put_acc; [eassumption|]. match goal with H : ac_unregister_all _ _ = Some _ |- _ => apply ac_unregister_all_spec in H as [_ H]; [apply H|eauto] end.
  - eapply untouched_put_acc; [eassumption|].
    match goal with H : ac_withdraw acc _ _ = Some _ |- _ => apply ac_withdraw_spec in H as (Hf & Hh & _); [|eauto] end. specialize (Hh t). rewrite only_ne in Hh by done.
    match goal with H : (if _ then ac_unregister acc1 _ else Some acc1) = Some _ |- _ => destruct unregister; [apply ac_unregister_spec in H as (_ & _ & H & _); [rewrite H; lia|apply Hf]|injection H as <-; lia] end.
  - apply untouched_lost. congruence.
  - eapply untouched_pool; [eassumption|]. match goal with H : pl_share_register _ _ = Some _ |- _ => now apply (pl_register_spec _ no_rates 0) in H as (_ & H & _) end.
  - eapply untouched_pool; [eassumption|]. match goal with H : pl_share_unregister _ _ = Some _ |- _ => now apply (pl_unregister_spec _ no_rates 0) in H as (_ & _ & H & _) end.
  - eapply untouched_pool; [eassumption|]. eapply transfer_reserve; eauto.
  - match goal with Ha : ac_withdraw sa _ _ = Some _, Hb : ac_deposit ra _ _ = Some _ |- _ =>
      apply ac_withdraw_spec in Ha as (_ & Ha & _); [|eauto]; apply ac_deposit_spec in Hb as (_ & Hb & _); [|eauto]; specialize (Ha t); specialize (Hb t); rewrite only_ne in Ha, Hb by done end.
    apply untouched_trans with (ex_put c (e_caller e) sa'); [apply (untouched_put_acc _ _ _ sa); [assumption|lia]|]. apply untouched_put. rewrite held_by_put, (proj2 (String.eqb_neq _ _)) by done.
    match goal with H : ex_account c receiver = Some ra |- _ => rewrite (held_by_account _ _ _ t H) end. lia.
  - eapply untouched_pool; [eassumption|]. eapply transfer_reserve; eauto.
  - match goal with Ha : ac_withdraw sa _ _ = Some _, Hb : ac_deposit ra _ _ = Some _ |- _ =>
      apply ac_withdraw_spec in Ha as (_ & Ha & _); [|eauto]; apply ac_deposit_spec in Hb as (_ & Hb & _); [|eauto]; specialize (Ha t); specialize (Hb t); rewrite only_ne in Ha, Hb by done end.
    apply untouched_trans with (ex_put c (e_caller e) sa'); [apply (untouched_put_acc _ _ _ sa); [assumption|lia]|]. apply untouched_put. rewrite held_by_put, (proj2 (String.eqb_neq _ _)) by done.
    match goal with H : ex_account c receiver = Some ra |- _ => rewrite (held_by_account _ _ _ t H) end. lia.
  - eapply untouched_pool; [eassumption|]. match goal with H : pl_share_transfer _ _ _ _ = Some _ |- _ => apply (transfer_reserve _ _ _ _ _ t) in H; rewrite <- H end.
    destruct unregister; [|congruence]. match goal with H : pl_share_unregister _ _ = Some _ |- _ => now apply (pl_unregister_spec _ no_rates 0) in H as (_ & _ & H & _) end.
  - eapply untouched_trans; [|apply (untouched_put_acc _ _ _ acc); [eassumption|reflexivity]].
    eapply untouched_pool; [eassumption|]. match goal with H : pl_share_transfer _ _ _ _ = Some _ |- _ => apply (transfer_reserve _ _ _ _ _ t) in H; rewrite <- H end.
    destruct unregister; [|congruence]. match goal with H : pl_share_unregister _ _ = Some _ |- _ => now apply (pl_unregister_spec _ no_rates 0) in H as (_ & _ & H & _) end.
  - match goal with H : ac_withdraw acc _ _ = Some _ |- _ => apply ac_withdraw_spec in H as (Hf & Hh & _); [|eauto] end. specialize (Hh t). rewrite only_ne in Hh by done.
    assert (K : ac_disjoint acc2 /\ ac_held acc2 t = ac_held acc t).
    { match goal with H : (if _ then ac_unregister acc1 _ else Some acc1) = Some _ |- _ => destruct unregister; [apply ac_unregister_spec in H as (Hf2 & _ & H & _); [split; [apply Hf2|rewrite H; lia]|apply Hf]|injection H as <-; split; [apply Hf|lia]] end. }
    destruct K as [Hd2 K]. apply untouched_trans with (ex_put c (e_caller e) acc2); [eapply untouched_put_acc; eauto|].
    eapply untouched_put_acc; [eassumption|].
    match goal with H : ac_deposit oa _ _ = Some _ |- _ => apply ac_deposit_spec in H as (_ & H & _); [rewrite H, only_ne by done; lia|] end.
    match goal with H : ex_account (ex_put _ _ _) _ = Some oa |- _ => rewrite ex_account_put in H; destruct (String.eqb _ _); [injection H as <-; done|eauto] end.
  - eapply untouched_put_acc; [eassumption|]. match goal with H : ac_update_shadow _ _ _ _ = Some _ |- _ => now apply update_shadow_held in H as [_ H] end.
  - assert (Hpw : pl_wf p) by (eapply pl_reachable_wf, ex_wf_pool; eauto). assert (Hin : t ∉ pl_tokens p) by (eapply no_pool_token; eauto).
    match goal with H : pl_remove_liquidity _ _ _ _ _ = Some _ |- _ => apply (pl_remove_spec _ (ex_rates c) (e_now e)) in H as (Hst & _); [|done] end.
    pose proof (pl_step_same _ _ _ _ Hpw Hst) as (_ & Hts & _). set (v := ac_set_near va2 (ac_near va2 + e_freed e)) in *.
    assert (Hv : ac_disjoint v /\ forall u, ac_held v u = ac_held va u).
    { match goal with H : ac_update_shadow va _ _ _ = Some va1 |- _ => pose proof (update_shadow_held _ _ _ _ _ H) as (A1 & B1) end.
      match goal with H : (if ?b then ac_update_shadow va1 _ _ _ else Some va1) = Some va2 |- _ => destruct b; [pose proof (update_shadow_held _ _ _ _ _ H) as (A2 & B2)|injection H as <-] end.
      - split; [change (ac_disjoint va2); eauto|]. intros u. change (ac_held va2 u = ac_held va u). now rewrite B2, B1.
      - split; [change (ac_disjoint va1); eauto|]. exact B1. }
    destruct Hv as [Hvd Hvh]. apply untouched_trans with (ex_put c victim v); [eapply untouched_put_acc; [eassumption|apply Hvh]|].
    eapply (untouched_liquidity t (ex_put c victim v)); eauto. eapply deposit_all_other; [|apply (pl_wf_nodup _ Hpw)|exact Hin|rewrite <- Hts; eassumption].
    match goal with H : ex_account (ex_put _ _ _) _ = Some la |- _ => rewrite ex_account_put in H; destruct (String.eqb _ _); [injection H as <-; done|eauto] end.
  - apply untouched_put. change (ac_held (ex_account_or_new c (default (e_caller e) a)) t = held_by c (default (e_caller e) a) t).
    unfold ex_account_or_new, held_by. now destruct (ex_account c (default (e_caller e) a)).
  - apply untouched_put. change (ac_held (ex_account_or_new c (default (e_caller e) a)) t = held_by c (default (e_caller e) a) t).
    unfold ex_account_or_new, held_by. now destruct (ex_account c (default (e_caller e) a)).
  - eapply untouched_put_acc; [eassumption|done].
  - split; [|split; [intros q; now apply reserve_same|done]]. intros b. unfold held_by, ex_account. ex_cbn. destruct (decide (e_caller e = b)) as [<-|]; [|now rewrite lookup_delete_ne].
    rewrite lookup_delete. cbn [fmap option_fmap option_map]. change (0 = held_by c (e_caller e) t). erewrite held_by_account by eassumption.
    unfold ac_held, ac_get_balance. match goal with H1 : ac_tokens acc = ∅, H2 : ac_legacy acc = ∅ |- _ => now rewrite H1, H2, !lookup_empty end.
  - eapply untouched_pool; [eassumption|]. now destruct p.
  - assert (Hpw : pl_wf p) by (eapply pl_reachable_wf, ex_wf_pool; eauto). assert (Hin : t ∉ pl_tokens p) by (intros K; apply Hu; exists p; auto).
    match goal with H : pl_remove_liquidity _ _ _ _ _ = Some _ |- _ => apply (pl_remove_spec _ (ex_rates c) (e_now e)) in H as (Hst & _); [|done] end.
    pose proof (pl_step_same _ _ _ _ Hpw Hst) as (_ & Hts & _).
    eapply untouched_liquidity; eauto. eapply deposit_all_other; [eauto|apply (pl_wf_nodup _ Hpw)|exact Hin|]. rewrite <- Hts. eassumption.
  - eapply untouched_put_acc; [eassumption|]. match goal with H : ac_withdraw _ _ _ = Some _ |- _ => apply ac_withdraw_spec in H as (_ & H & _); [specialize (H t); rewrite only_ne in H by done; lia|eauto] end.
  - eapply untouched_pool; [eassumption|]. match goal with H : pl_ramp _ _ _ _ _ = Some _ |- _ => now apply pl_ramp_spec in H as (_ & H & _) end.
  - eapply untouched_pool; [eassumption|]. match goal with H : pl_stop_ramp _ _ _ = Some _ |- _ => now apply pl_stop_ramp_spec in H as (_ & H & _) end.
Qed.

(** ** Incoming tokens *)
Lemma direct_other c e u x r l skip c' outs t :
  ex_wf (e_now e) c -> e_now e < 2 ^ 64 -> t ∈ cf_frozen (ex_cfg c) -> ex_direct c e u x r l skip = Some (c', outs) ->
  untouched t c c' /\ amount_in_list t outs = only u t x.
Proof.
  intros Hwf HW Ht H. apply ex_direct_inv in H as (va & prev & va' & res & Hd & Hx & ->).
  pose proof (ac_deposit_legacy _ _ _ _ Hd ac_new_legacy) as Hl. pose proof (ex_execute_legacy _ _ _ _ _ _ _ _ _ _ Hx Hl) as Hl'.
  apply ac_deposit_spec in Hd as (Hf & Hh & _); [|apply ac_new_disjoint].
  apply (execute_other _ _ _ _ _ _ _ _ _ _ t) in Hx as [Hx Hun]; auto; [|apply Hf]. split; [done|].
  now rewrite (va_out_held _ _ Hl'), Hx, Hh, ac_new_held.
Qed.
Definition without (c : Exchange) (l : list AddInfo) (t : AccountId) : Prop := forall i, i ∈ l -> ~ in_pool c (ai_pool i) t.
Lemma zap_other t e s l : forall c m c' m', Forall pl_wf (ex_pools c) -> without c l t -> ex_zap_loop c e s m l = Some (c', m') ->
  untouched t c c' /\ default 0 (m' !! t) = default 0 (m !! t).
Proof.
  induction l as [|i l IH]; intros c m c' m' Hw Hn H; cbn [ex_zap_loop] in H; [injection H as <- <-; split; [apply untouched_refl|done]|].
  bnd H q Hq. destruct q as [c1 m1]. apply ex_zap_one_inv in Hq as (p & p' & am & sh & Hp & Hadd & _ & Hm & ->).
  assert (Hpw : pl_wf p) by (eapply Forall_lookup_1; eauto).
  assert (Hin : t ∉ pl_tokens p) by (intros K; apply (Hn i); [apply elem_of_list_here|exists p; auto]).
  assert (Hst : pl_step (ex_rates c) (e_now e) p p').
  { destruct Hadd as [(_ & Hadd & _)|(_ & _ & mn & _ & Hadd)]; [apply (pl_add_spec _ (ex_rates c) (e_now e)) in Hadd as [? _]; done|apply pl_add_stable_spec in Hadd as [? _]; done]. }
  pose proof (pl_step_same _ _ _ _ Hpw Hst) as (_ & Hts & _).
  apply (tc_sub_all_spec _ t) in Hm. rewrite (amount_in_zip _ _ _ (pl_wf_nodup _ Hpw)), (beside_notin_l _ _ _ Hin) in Hm.
  apply IH in H as [Hun Hm']; [split| |].
  - eapply untouched_trans; [|exact Hun]. eapply untouched_pool; [exact Hp|]. eapply step_outside; eauto.
  - lia.
  - ex_cbn. apply Forall_insert; [done|]. eapply pl_step_wf; eauto.
  - intros j Hj (q & Hq & Hqt). apply (Hn j); [now apply elem_of_list_further|]. unfold in_pool, ex_pool in *. cbn [ex_put_pool ex_pools ex_set_pools] in Hq.
    destruct (decide (N.to_nat (ai_pool i) = N.to_nat (ai_pool j))) as [E|E].
    + rewrite E in *. rewrite list_lookup_insert in Hq by (eapply lookup_lt_Some; eauto). injection Hq as <-. exists p. split; [done|]. congruence.
    + rewrite list_lookup_insert_ne in Hq by done. eauto.
Qed.
Lemma transfer_untouched c e s x m c' ps t :
  ex_wf (e_now e) c -> e_now e < 2 ^ 64 -> t ∈ cf_frozen (ex_cfg c) -> ex_ft_on_transfer c e s x m = Some (c', ps) ->
  (forall a, held_by c' a t = held_by c a t + match m with MsgHotZap _ _ _ _ => if String.eqb s a then only (e_caller e) t x else 0 | _ => 0 end) /\
  (forall pid, reserve_at c' pid t = reserve_at c pid t) /\ (forall a, lost_of c' a t = lost_of c a t).
Proof.
  intros Hwf HW Ht H. assert (Habout : ~ arrives_about c (e_caller e) m t) by (intros K; rewrite (frozen_transfer c e s x m t Ht K) in H; discriminate H).
  unfold ex_ft_on_transfer in H. cbv zeta in H. grd H. grd H. destruct m as [|r l echo su rc skip|r l infos skip]; cbn [arrives_about] in Habout.
  - grd H. bnd H c1 Hd. injection H as <- _. apply ex_deposit_inv in Hd as (acc & acc' & Ha & _ & Hd & _ & ->).
    apply ac_deposit_spec in Hd as (_ & Hh & _); [|eapply ex_wf_account; eauto].
    destruct (untouched_put_acc t c s acc acc' Ha) as (A & B & C); [rewrite Hh, only_ne by done; lia|]. split; [intros a; rewrite A; lia|done].
  - grd H. grd H. bnd H u Hu. bnd H d Hd. destruct d as [c1 outs]. grd H. injection H as <- _.
    eapply direct_other in Hd as [(A & B & C) _]; eauto. split; [intros a; rewrite A; lia|done].
  - bnd H c1 Hz. injection H as <- _.
    apply ex_hot_zap_inv in Hz as (acc & ts & c2 & outs & m & c3 & m' & acc' & _ & _ & Ha & _ & _ & _ & Hd & Hm & Hz & _ & Hl & _ & ->).
    pose proof (ex_direct_moved _ _ _ _ _ _ _ _ _ Hwf HW Hd) as [Hsf M1].
    eapply direct_other in Hd as [Hun Hout]; eauto. apply (tc_add_all_spec _ t) in Hm. rewrite lookup_empty, Hout in Hm. dfl.
    apply (zap_other t) in Hz as [Hun2 Hm'].
    2: { apply (ex_wf_pools (e_now e)). apply M1. }
    2: { intros i Hi (q & Hq & Hqt). apply Habout. right. exists i. split; [done|]. unfold in_pool, ex_pool in *. destruct Hsf as (_ & _ & _ & _ & _ & Hsf).
         destruct (Forall2_lookup_r _ _ _ _ _ Hsf Hq) as (p & Hp & Hsame & _). exists p. split; [done|]. destruct Hsame as (_ & Ets & _). congruence. }
    pose proof (untouched_trans _ _ _ _ Hun Hun2) as (A & B & C).
    split; [|split; [exact B|exact C]]. intros a. rewrite held_by_put. destruct (String.eqb_spec s a) as [E|E]; [|rewrite A; lia]. subst a.
    apply ac_deposit_list_spec in Hl as [_ Hh]; [|exact (ex_wf_account _ _ _ _ Hwf Ha)]. rewrite Hh, (amount_in_msum t m') by done.
    rewrite (held_by_account _ _ _ t Ha). change (ac_held (ac_set_near acc (ac_near acc - e_grow e)) t) with (ac_held acc t). rewrite Hm'. lia.
Qed.

(** ** Reserves of a frozen token over one event *)
Lemma mft_reserve c id s r am c' x t pid : ex_mft_transfer c id s r am = Some (c', x) -> reserve_at c' pid t = reserve_at c pid t.
Proof.
  intros H. apply ex_mft_transfer_inv in H as (_ & _ & H). destruct (mft_pool_of id).
  - destruct H as (p & p' & Hp & _ & _ & Ht & ->). eapply untouched_pool; [exact Hp|]. eapply transfer_reserve; eauto.
  - destruct H as (sa & sa' & ra & ra' & _ & _ & _ & _ & _ & _ & ->). now apply reserve_same.
Qed.
Definition takes_fees (c : Exchange) (ev : Event) (t : AccountId) : Prop :=
  match ev with EvCall _ (CRemoveFeeLiquidity q _ _) => in_pool c q t | _ => False end.
Lemma happens_reserve w ev now c c' t pid :
  ex_wf now c -> happens w ev now c c' -> t ∈ cf_frozen (ex_cfg c) -> ~ takes_fees c ev t -> reserve_at c' pid t = reserve_at c pid t.
Proof.
  intros Hwf H Ht Hev.
  destruct H as [|e x ps c' He' He HW' Hc H|e s x m ps c' He HW' H|e s u x c' He H|i id s r x ret c' Hi' H|i e act s q x fee ok ps c' He Hi' H|o c' H]; [done|..].
  - subst. cbn [takes_fees] in Hev.
    assert (K : ~ unchecked c x t \/ unchecked c x t) by (destruct x; cbn [unchecked] in *; try (now left); match goal with |- ~ ?a = ?b \/ _ => destruct (decide (a = b)); auto end).
    destruct K as [K|K]; [now apply (ex_call_untouched _ _ _ _ _ t) in H as (_ & H & _)|].
    destruct (is_settings x) eqn:Es; [destruct x; discriminate Es || now destruct K|].
    call_cases x Es H; cbn [unchecked] in K; try (now destruct K); try (now apply reserve_same); (eapply untouched_pool; [eassumption|]; eapply transfer_reserve; eauto).
  - subst. now eapply transfer_untouched in H as (_ & H & _).
  - apply reserve_same. eapply recredit_pools; eauto.
  - apply ex_mft_resolve_inv in H as [[-> _]|(bal & _ & _ & _ & H)]; [done|]. eapply mft_reserve; eauto.
  - apply reserve_same. apply ex_callback_shadow_inv in H as [(_ & _ & -> & _)|[(_ & _ & _ & acc & acc1 & _ & _ & _ & ->)|(_ & acc & acc1 & _ & _ & _ & -> & _)]]; done.
  - apply reserve_same. unfold ex_oracle in H; bnd H st Hs; injection H as <-; done.
Qed.
