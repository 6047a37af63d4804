(** * Stored rates and prices come from recent oracle answers. *)
From Verif Require Import Base BaseLemmas StableMath StablePool Rates SpecRates.
Global Open Scope N_scope.

Lemma PRECISION_val : PRECISION = 10 ^ 24.
Proof. vm_compute; reflexivity. Qed.
Lemma W32_val : W32 = 2 ^ 32.
Proof. vm_compute; reflexivity. Qed.

Lemma price_data_valid_Some d now mr ms u :
  price_data_assert_valid d now mr ms = Some u ->
  pd_recency d <= mr /\ pd_timestamp d <= now <= pd_timestamp d + ms * 10 ^ 9.
Proof. unfold price_data_assert_valid, to_nano. intros H. inv. bool_inv. lia. Qed.

Lemma as_u32_small z : (0 <= z < 2 ^ 32)%Z -> as_u32 z = Z.to_N z.
Proof. intros H. unfold as_u32. rewrite W32_val. now rewrite Z.mod_small. Qed.

Lemma pyth_valid_Some p now dur :
  pyth_is_valid p now dur = Some true -> (0 < py_price p)%Z /\ published_within p now dur.
Proof.
  unfold pyth_is_valid, published_within, to_nano.
  destruct (Z.ltb_spec 0 (py_price p)); [|cbn; congruence].
  destruct (Z.ltb_spec 0 (py_publish p)); [|cbn; congruence].
  cbn [andb]. intros H'. apply bind_Some in H' as (x & Hx & H'). apply cadd_Some in Hx as [-> _].
  injection H' as H'. apply N.leb_le in H'. split_and!; auto.
  intros. rewrite as_u32_small in H' by lia. exact H'.
Qed.

Lemma pyth_value_Some p v : pyth_value p = Some v -> (0 < py_price p)%Z -> v = scaled_pyth p.
Proof.
  unfold pyth_value, scaled_pyth. intros H Hp.
  apply bind_Some in H as (pw & Hpw & H). apply cpow_Some in Hpw as [-> _].
  apply bind_Some in H as (x & Hx & H). apply cmul_Some in Hx as [-> _].
  rewrite PRECISION_val in H.
  destruct (Z.ltb_spec 0 (py_expo p)).
  - apply cmul_Some in H as [-> _]. f_equal. f_equal. destruct (py_expo p); cbn; lia.
  - apply cdiv_Some in H as [-> _]. f_equal. f_equal. destruct (py_expo p); cbn; lia.
Qed.

Lemma sfrax_valid_dur i : sfrax_valid i = true ->
  match i with SfraxPriceOracle _ _ _ d => d | SfraxPyth _ _ _ d => d end <= 300.
Proof. unfold sfrax_valid, MAX_DURATION_SEC, MIN_DURATION_SEC. intros H; bool_inv; destruct i; lia. Qed.

Lemma published_within_weaken p a d d' : d <= d' -> published_within p a d -> published_within p a d'.
Proof. intros Hd [H1 H2]. split; auto. intros H. specialize (H2 H). nia. Qed.

Lemma rate_set_good now r a r' :
  match rt_kind r with RSfrax i => sfrax_valid i = true | _ => True end ->
  rate_set now r a = Some r' ->
  rt_kind r' = rt_kind r /\ rt_at r' = now /\ rt_contract r' = rt_contract r /\
  good_rate_answer (rt_contract r) a now (rt_rate r').
Proof.
  intros Hv H. unfold rate_set in H.
  assert (Hu : forall x, (x' ← fit W128 x; Some (mkRate (rt_kind r) x' now (rt_contract r))) = Some r' ->
    rt_kind r' = rt_kind r /\ rt_at r' = now /\ rt_contract r' = rt_contract r /\ rt_rate r' = x).
  { intros x Hx. apply bind_Some in Hx as (x' & Hx' & Hx). apply fit_Some in Hx' as [-> _].
    injection Hx as <-. done. }
  destruct (rt_kind r) as [| | |[o b mr ms|o bi ri dur]] eqn:Hk; destruct a as [x|d|b' q]; try done;
    try (apply Hu in H; rewrite ?Hk in *; exact H).
  - apply bind_Some in H as ([] & Hd & H). apply price_data_valid_Some in Hd as (_ & Ht).
    apply bind_Some in H as ([b1 bp0] & H0 & H). apply bind_Some in H as ([r1 rp0] & H1 & H).
    apply bind_Some in H as ([] & He & H). apply ensure_Some in He. apply andb_true_iff in He as [He1 He2].
    apply String.eqb_eq in He1, He2. subst b1 r1.
    apply bind_Some in H as (bp & -> & H). apply bind_Some in H as (rp & -> & H).
    apply bind_Some in H as ([] & Hde & H). apply ensure_Some in Hde. apply N.eqb_eq in Hde.
    apply bind_Some in H as (pr & Hpr & H). apply u128_ratio_Some in Hpr as (-> & Hpos & _).
    injection H as <-. cbn [rt_kind rt_at rt_contract rt_rate]. split_and!; auto.
    cbn [good_rate_answer]. apply sfrax_valid_dur in Hv.
    destruct (pd_prices d) as [|y0 [|y1 rest]]; try done. cbn in H0, H1. injection H0 as ->. injection H1 as ->.
    exists b, bp, rp, rest. rewrite PRECISION_val. split_and!; auto; nia.
  - apply bind_Some in H as ([] & Hb & H). apply bind_Some in H as ([] & Hq & H).
    apply bind_Some in H as (vb & Hvb & H). apply bind_Some in H as ([] & Eb & H). apply ensure_Some in Eb. subst vb.
    apply bind_Some in H as (vq & Hvq & H). apply bind_Some in H as ([] & Eq & H). apply ensure_Some in Eq. subst vq.
    apply pyth_valid_Some in Hvb as [Pb Wb]. apply pyth_valid_Some in Hvq as [Pq Wq].
    apply bind_Some in H as (bp & Hbp & H). apply bind_Some in H as (qp & Hqp & H).
    apply pyth_value_Some in Hbp; [|done]. apply pyth_value_Some in Hqp; [|done]. subst bp qp.
    apply bind_Some in H as (x & Hx & H). apply cmul_Some in Hx as [-> _].
    apply bind_Some in H as (y & Hy & H). apply cdiv_Some in Hy as [-> Hpos].
    apply bind_Some in H as (pr & Hpr & H). apply fit_Some in Hpr as [-> _].
    injection H as <-. cbn [rt_kind rt_at rt_contract rt_rate good_rate_answer]. apply sfrax_valid_dur in Hv.
    rewrite PRECISION_val. split_and!; auto; eapply published_within_weaken; eauto.
Qed.

(** ** Rated tokens *)
Definition rate_ok (h : list (N * rate_event)) (t : AccountId) (r : Rate) : Prop :=
  rt_contract r = t /\ match rt_kind r with RSfrax i => sfrax_valid i = true | _ => True end /\
  (rt_at r = 0 /\ rt_rate r = 10 ^ 24 \/
   exists a, (rt_at r, EvRateAnswer t a) ∈ h /\ good_rate_answer t a (rt_at r) (rt_rate r)).

Lemma rate_ok_cons h x t r : rate_ok h t r -> rate_ok (x :: h) t r.
Proof.
  intros (H1 & H2 & H3). split_and!; auto. destruct H3 as [?|(a & Ha & ?)]; [auto|right].
  exists a. split; auto. now right.
Qed.

Lemma rs_batch_prices_rates s now decs l s' : rs_batch_prices s now decs l = Some s' ->
  rs_rates s' = rs_rates s /\ rs_price_cfg s' = rs_price_cfg s /\ rs_pyth_cfg s' = rs_pyth_cfg s.
Proof.
  revert s; induction l as [|[t [p|]] l IH]; intros s H; cbn [rs_batch_prices] in H.
  - now injection H as <-.
  - destruct (decs !! t); [|now apply IH in H].
    apply bind_Some in H as (d & _ & H). apply bind_Some in H as (pr & _ & H). now apply IH in H.
  - now apply IH in H.
Qed.
Lemma rs_set_all_rates s now price ts s' : rs_set_all s now price ts = Some s' ->
  rs_rates s' = rs_rates s /\ rs_price_cfg s' = rs_price_cfg s /\ rs_pyth_cfg s' = rs_pyth_cfg s.
Proof.
  revert s; induction ts as [|t ts IH]; intros s H; cbn [rs_set_all] in H.
  - now injection H as <-.
  - apply bind_Some in H as (d & _ & H). now apply IH in H.
Qed.
Lemma rs_batch_pyth_rates s now dur prices ids s' : rs_batch_pyth s now dur prices ids = Some s' ->
  rs_rates s' = rs_rates s /\ rs_price_cfg s' = rs_price_cfg s /\ rs_pyth_cfg s' = rs_pyth_cfg s.
Proof.
  revert s; induction ids as [|[i ts] ids IH]; intros s H; cbn [rs_batch_pyth] in H.
  - now injection H as <-.
  - destruct (prices !! i) as [p|]; [|now apply IH in H].
    apply bind_Some in H as (v & _ & H). destruct v; [|now apply IH in H].
    apply bind_Some in H as (x & _ & H). apply bind_Some in H as (pr & _ & H).
    apply bind_Some in H as (s1 & H1 & H). apply IH in H. apply rs_set_all_rates in H1.
    destruct H as (-> & -> & ->). done.
Qed.

Lemma rates_provenance h s : rate_history h s -> forall t r, rs_rates s !! t = Some r -> rate_ok h t r.
Proof.
  induction 1 as [|h s now ev s' Hh IH Ht H]; intros t r Hr; [done|].
  assert (Hsame : rs_rates s' = rs_rates s -> rate_ok ((now, ev) :: h) t r).
  { intros E. rewrite E in Hr. apply rate_ok_cons. auto. }
  destruct ev; cbn [rate_exec] in H.
  - unfold rs_register_rate in H. destruct (rs_rates s !! t0) eqn:Ht0; [done|].
    apply bind_Some in H as (r0 & Hr0 & H). injection H as <-. cbn [rs_rates rs_set_rates] in Hr.
    destruct (decide (t = t0)) as [<-|Hne].
    + rewrite lookup_insert in Hr. injection Hr as <-. unfold rate_new in Hr0.
      apply bind_Some in Hr0 as ([] & Hv & Hr0). apply ensure_Some in Hv. injection Hr0 as <-.
      split_and!; cbn; auto. { now destruct k. }
    + rewrite lookup_insert_ne in Hr by congruence. apply rate_ok_cons; auto.
  - injection H as <-. cbn in Hr. apply lookup_delete_Some in Hr as [_ Hr]. apply rate_ok_cons; auto.
  - unfold rs_update_extra in H. apply bind_Some in H as (r0 & Hr0 & H).
    destruct (rt_kind r0) eqn:Hk; try done. apply bind_Some in H as ([] & Hv & H). apply ensure_Some in Hv.
    injection H as <-. cbn [rs_rates rs_set_rates] in Hr.
    destruct (decide (t = t0)) as [<-|Hne].
    + rewrite lookup_insert in Hr. injection Hr as <-.
      apply (rate_ok_cons h (now, EvExtraInfo t i)). specialize (IH _ _ Hr0).
      destruct IH as (H1 & _ & H3). split_and!; cbn; auto.
    + rewrite lookup_insert_ne in Hr by congruence. apply rate_ok_cons; auto.
  - unfold rs_rate_callback in H. destruct (rs_rates s !! t0) as [r0|] eqn:Ht0.
    2: { injection H as <-. apply rate_ok_cons; auto. }
    apply bind_Some in H as (r1 & Hr1 & H). injection H as <-. cbn [rs_rates rs_set_rates] in Hr.
    destruct (decide (t = t0)) as [<-|Hne].
    + rewrite lookup_insert in Hr. injection Hr as <-. destruct (IH _ _ Ht0) as (Hc & Hv & _).
      apply rate_set_good in Hr1 as (Hk & Hat & Hcc & Hg); [|done]. rewrite Hc in Hg.
      split_and!; [congruence|now rewrite Hk|right]. exists a. rewrite Hat. split; [left|auto].
    + rewrite lookup_insert_ne in Hr by congruence. apply rate_ok_cons; auto.
  - unfold rs_register_degen in H. destruct (rs_degens s !! t0); [done|]. injection H as <-. auto.
  - unfold rs_update_degen in H. apply bind_Some in H as (d & _ & H). injection H as <-. auto.
  - injection H as <-. auto.
  - unfold rs_register_config in H. apply bind_Some in H as ([] & _ & H). injection H as <-. apply Hsame. now destruct c.
  - unfold rs_update_config in H. apply bind_Some in H as ([] & _ & H). injection H as <-. apply Hsame. now destruct c.
  - injection H as <-. apply Hsame. unfold rs_unregister_config. now repeat case_match.
  - unfold rs_degen_callback in H. apply bind_Some in H as (d & _ & H). apply bind_Some in H as (d' & _ & H).
    injection H as <-. auto.
  - unfold rs_batch_price_callback in H. apply bind_Some in H as (c & _ & H). apply bind_Some in H as ([] & _ & H).
    apply rs_batch_prices_rates in H. apply Hsame, H.
  - unfold rs_batch_pyth_callback in H. apply bind_Some in H as (c & _ & H).
    apply rs_batch_pyth_rates in H. apply Hsame, H.
Qed.

(** ** Degen tokens *)
Definition degen_ok (h : list (N * rate_event)) (t : AccountId) (d : Degen) : Prop :=
  dg_token d = t /\
  forall price at_, dg_info d = Some (price, at_) ->
  exists ev h1 h2 s0, h = h2 ++ (at_, ev) :: h1 /\ rate_history h1 s0 /\ good_degen_event s0 t ev at_ price.

Lemma degen_ok_cons h x t d : degen_ok h t d -> degen_ok (x :: h) t d.
Proof.
  intros (H1 & H2). split; auto. intros p a Hi. destruct (H2 p a Hi) as (ev & h1 & h2 & s0 & -> & Hh & Hg).
  exists ev, h1, (x :: h2), s0. auto.
Qed.

Lemma price_oracle_value_quoted p dec v : price_oracle_value p dec = Some v -> quoted p dec v.
Proof.
  unfold price_oracle_value. intros H. apply bind_Some in H as (k & Hk & H). apply csub_Some in Hk as [-> Hle].
  apply bind_Some in H as (fd & Hfd & H). apply cpow_Some in Hfd as [-> _].
  apply u128_ratio_Some in H as (-> & _ & _). rewrite PRECISION_val. split; auto.
Qed.

Lemma rs_batch_prices_degens s now decs l s' t d' :
  rs_batch_prices s now decs l = Some s' -> rs_degens s' !! t = Some d' ->
  exists d, rs_degens s !! t = Some d /\ dg_token d' = dg_token d /\
    (d' = d \/ exists p dec price, (t, Some p) ∈ l /\ decs !! t = Some dec /\ quoted p dec price /\
       dg_info d' = Some (price, now)).
Proof.
  revert s; induction l as [|[u [p|]] l IH]; intros s H Hd'; cbn [rs_batch_prices] in H.
  - injection H as <-. eauto.
  - destruct (decs !! u) as [dec|] eqn:Hdec.
    + apply bind_Some in H as (d & Hd & H). apply bind_Some in H as (pr & Hpr & H).
      apply price_oracle_value_quoted in Hpr.
      destruct (IH _ H Hd') as (d1 & Hd1 & Htok & Hor). cbn [rs_degens rs_set_degens] in Hd1.
      destruct (decide (t = u)) as [->|Hne].
      * rewrite lookup_insert in Hd1. injection Hd1 as <-. exists d. split; auto. split; [done|].
        right. destruct Hor as [->|(p2 & dec2 & price & Hin & ? & ? & ?)].
        -- exists p, dec, pr. split_and!; auto. left.
        -- exists p2, dec2, price. split_and!; auto. now right.
      * rewrite lookup_insert_ne in Hd1 by congruence. exists d1. split_and!; auto.
        destruct Hor as [->|(p2 & dec2 & price & Hin & ? & ? & ?)]; [auto|right].
        exists p2, dec2, price. split_and!; auto. now right.
    + destruct (IH _ H Hd') as (d1 & Hd1 & Htok & Hor). exists d1. split_and!; auto.
      destruct Hor as [->|(p2 & dec2 & price & Hin & ? & ? & ?)]; [auto|right].
      exists p2, dec2, price. split_and!; auto. now right.
  - destruct (IH _ H Hd') as (d1 & Hd1 & Htok & Hor). exists d1. split_and!; auto.
    destruct Hor as [->|(p2 & dec2 & price & Hin & ? & ? & ?)]; [auto|right].
    exists p2, dec2, price. split_and!; auto. now right.
Qed.

Lemma rs_set_all_degens s now price ts s' t d' :
  rs_set_all s now price ts = Some s' -> rs_degens s' !! t = Some d' ->
  exists d, rs_degens s !! t = Some d /\ dg_token d' = dg_token d /\
    (d' = d \/ t ∈ ts /\ dg_info d' = Some (price, now)).
Proof.
  revert s; induction ts as [|u ts IH]; intros s H Hd'; cbn [rs_set_all] in H.
  - injection H as <-. eauto.
  - apply bind_Some in H as (d & Hd & H). destruct (IH _ H Hd') as (d1 & Hd1 & Htok & Hor).
    cbn [rs_degens rs_set_degens] in Hd1. destruct (decide (t = u)) as [->|Hne].
    + rewrite lookup_insert in Hd1. injection Hd1 as <-. exists d. split_and!; auto.
      right. split; [left|]. destruct Hor as [->|[_ ?]]; auto.
    + rewrite lookup_insert_ne in Hd1 by congruence. exists d1. split_and!; auto.
      destruct Hor as [->|[? ?]]; [auto|right]. split; auto. now right.
Qed.

Lemma rs_batch_pyth_degens s now dur prices ids s' t d' :
  rs_batch_pyth s now dur prices ids = Some s' -> rs_degens s' !! t = Some d' ->
  exists d, rs_degens s !! t = Some d /\ dg_token d' = dg_token d /\
    (d' = d \/ exists i ts p, (i, ts) ∈ ids /\ t ∈ ts /\ prices !! i = Some p /\
       (0 < py_price p)%Z /\ published_within p now dur /\ dg_info d' = Some (scaled_pyth p, now)).
Proof.
  revert s; induction ids as [|[i ts] ids IH]; intros s H Hd'; cbn [rs_batch_pyth] in H.
  - injection H as <-. eauto.
  - assert (Hrec : forall s1, rs_batch_pyth s1 now dur prices ids = Some s' ->
      exists d, rs_degens s1 !! t = Some d /\ dg_token d' = dg_token d /\
      (d' = d \/ exists i' ts' p, (i', ts') ∈ (i, ts) :: ids /\ t ∈ ts' /\ prices !! i' = Some p /\
       (0 < py_price p)%Z /\ published_within p now dur /\ dg_info d' = Some (scaled_pyth p, now))).
    { intros s1 H1. destruct (IH _ H1 Hd') as (d1 & Hd1 & Htok & Hor). exists d1. split_and!; auto.
      destruct Hor as [->|(i' & ts' & p & Hin & ?)]; [auto|right]. exists i', ts', p. split; auto. now right. }
    destruct (prices !! i) as [p|] eqn:Hp; [|auto].
    apply bind_Some in H as (v & Hv & H). destruct v; [|auto].
    apply bind_Some in H as (x & Hx & H). apply bind_Some in H as (pr & Hpr & H).
    apply fit_Some in Hpr as [-> _]. apply bind_Some in H as (s1 & Hs1 & H).
    apply pyth_valid_Some in Hv as [Hpos Hw]. apply pyth_value_Some in Hx; [|done]. subst x.
    destruct (Hrec _ H) as (d1 & Hd1 & Htok & Hor).
    destruct (rs_set_all_degens _ _ _ _ _ _ _ Hs1 Hd1) as (d & Hd & Htok1 & Hor1).
    exists d. split_and!; [auto|congruence|].
    destruct Hor as [->|?]; [|auto]. destruct Hor1 as [->|[Hin Hinfo]]; [auto|right].
    exists i, ts, p. split_and!; auto. left.
Qed.

Lemma degens_provenance h s : rate_history h s -> forall t d, rs_degens s !! t = Some d -> degen_ok h t d.
Proof.
  induction 1 as [|h s now ev s' Hh IH Ht H]; intros t d Hd; [done|].
  assert (Hsame : rs_degens s' = rs_degens s -> degen_ok ((now, ev) :: h) t d).
  { intros E. rewrite E in Hd. apply degen_ok_cons. auto. }
  assert (Hnew : forall price, dg_token d = t -> dg_info d = Some (price, now) ->
     good_degen_event s t ev now price -> degen_ok ((now, ev) :: h) t d).
  { intros price Htok Hi Hg. split; auto. intros p' a' Hi'. rewrite Hi in Hi'. injection Hi' as <- <-.
    exists ev, h, [], s. auto. }
  destruct ev; cbn [rate_exec] in H.
  - unfold rs_register_rate in H. destruct (rs_rates s !! t0) eqn:Ht0; [done|].
    apply bind_Some in H as (r0 & Hr0 & H). injection H as <-. auto.
  - injection H as <-. auto.
  - unfold rs_update_extra in H. apply bind_Some in H as (r0 & Hr0 & H).
    destruct (rt_kind r0) eqn:Hk; try done. apply bind_Some in H as ([] & Hv & H). injection H as <-. auto.
  - unfold rs_rate_callback in H. destruct (rs_rates s !! t0) as [r0|] eqn:Ht0.
    2: { injection H as <-. auto. }
    apply bind_Some in H as (r1 & Hr1 & H). injection H as <-. auto.
  - unfold rs_register_degen in H. destruct (rs_degens s !! t0); [done|]. injection H as <-.
    cbn in Hd. destruct (decide (t = t0)) as [<-|Hne].
    + rewrite lookup_insert in Hd. injection Hd as <-. split; [done|]. cbn. congruence.
    + rewrite lookup_insert_ne in Hd by congruence. apply degen_ok_cons; auto.
  - unfold rs_update_degen in H. apply bind_Some in H as (d0 & _ & H). injection H as <-.
    cbn in Hd. destruct (decide (t = t0)) as [<-|Hne].
    + rewrite lookup_insert in Hd. injection Hd as <-. split; [done|]. cbn. congruence.
    + rewrite lookup_insert_ne in Hd by congruence. apply degen_ok_cons; auto.
  - injection H as <-. cbn in Hd. apply lookup_delete_Some in Hd as [_ Hd]. apply degen_ok_cons; auto.
  - unfold rs_register_config in H. apply bind_Some in H as ([] & _ & H). injection H as <-. apply Hsame. now destruct c.
  - unfold rs_update_config in H. apply bind_Some in H as ([] & _ & H). injection H as <-. apply Hsame. now destruct c.
  - injection H as <-. apply Hsame. unfold rs_unregister_config. now repeat case_match.
  - unfold rs_degen_callback in H. apply bind_Some in H as (d0 & Hd0 & H). apply bind_Some in H as (d' & Hd' & H).
    injection H as <-. cbn in Hd. destruct (decide (t = t0)) as [<-|Hne].
    2: { rewrite lookup_insert_ne in Hd by congruence. apply degen_ok_cons; auto. }
    rewrite lookup_insert in Hd. injection Hd as ->. destruct (IH _ _ Hd0) as [Htok _].
    unfold degen_set_price in Hd'. destruct (dg_src d0), a as [pd|p]; try done.
    + apply bind_Some in Hd' as (cfg & Hcfg & Hd'). apply bind_Some in Hd' as ([] & Hv & Hd').
      apply price_data_valid_Some in Hv as [Hrec Hts].
      apply bind_Some in Hd' as ([u pr] & H0 & Hd'). apply bind_Some in Hd' as ([] & He & Hd').
      apply ensure_Some in He. apply String.eqb_eq in He. rewrite Htok in He. subst u.
      apply bind_Some in Hd' as (tp & -> & Hd'). apply bind_Some in Hd' as (price & Hp & Hd').
      apply price_oracle_value_quoted in Hp. injection Hd' as <-.
      apply (Hnew price); [done|done|]. cbn. split_and!; auto. { exists cfg. auto. }
      destruct (pd_prices pd) as [|y rest]; [done|]. cbn in H0. injection H0 as ->. eauto 10.
    + apply bind_Some in Hd' as (cfg & Hcfg & Hd'). apply bind_Some in Hd' as ([] & Hv & Hd').
      apply bind_Some in Hd' as (v & Hvv & Hd'). apply bind_Some in Hd' as ([] & Ev & Hd').
      apply ensure_Some in Ev. subst v. apply pyth_valid_Some in Hvv as [Hpos Hw].
      apply bind_Some in Hd' as (x & Hx & Hd'). apply pyth_value_Some in Hx; [|done]. subst x.
      apply bind_Some in Hd' as (price & Hp & Hd'). apply fit_Some in Hp as [-> _]. injection Hd' as <-.
      apply (Hnew (scaled_pyth p)); [done|done|]. cbn. split_and!; auto. exists cfg. auto.
  - unfold rs_batch_price_callback in H. apply bind_Some in H as (c & Hc & H).
    apply bind_Some in H as ([] & Hv & H). apply price_data_valid_Some in Hv as [Hrec Hts].
    destruct (rs_batch_prices_degens _ _ _ _ _ _ _ H Hd) as (dz & Hd0 & Htok & Hor).
    destruct Hor as [->|(p & dec & price & Hin & Hdec & Hq & Hi)]; [apply degen_ok_cons; auto|].
    destruct (IH _ _ Hd0) as [Htok0 _].
    apply (Hnew price); [congruence|done|]. cbn. split; [exists c; auto|]. eauto 10.
  - unfold rs_batch_pyth_callback in H. apply bind_Some in H as (c & Hc & H).
    destruct (rs_batch_pyth_degens _ _ _ _ _ _ _ _ H Hd) as (dz & Hd0 & Htok & Hor).
    destruct Hor as [->|(i & ts & p & Hin & Hint & Hp & Hpos & Hw & Hi)]; [apply degen_ok_cons; auto|].
    destruct (IH _ _ Hd0) as [Htok0 _].
    apply (Hnew (scaled_pyth p)); [congruence|done|]. cbn. exists i, ts, p. split_and!; auto. exists c. auto.
Qed.
