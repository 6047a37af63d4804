(** * Facts about stable, rated and degen pools used by the property theorems *)
From Verif Require Import Base BaseLemmas SimplePool SpecSimple SimplePoolProofs SimpleFacts StableMath
  StableMathProofs StablePool SpecStable StablePoolProofs StablePoolInv.

(** ** Conversions that always succeed *)
Lemma pow10_W128 n : n <= 24 -> 10 ^ n < W128.
Proof.
  intros H. apply N.le_lt_trans with (10 ^ 24); [apply N.pow_le_mono_r; [discriminate|done]|].
  vm_compute. reflexivity.
Qed.
Lemma from_c_ok k d c : d <= kept_decimals k -> exists a, from_c k d c = Some a.
Proof.
  intros H. unfold from_c. rewrite target_kept. apply N.leb_le in H as ->.
  unfold cpow. rewrite fit_intro by (apply pow10_W128; destruct k; cbn [kept_decimals]; lia).
  cbn [mbind option_bind]. rewrite cdiv_intro by apply pow10_pos. eauto.
Qed.

Lemma to_c_kept k d a c : to_c k d a = Some c -> c = in_kept_units (kept_decimals k) d a.
Proof. apply to_c_Some. Qed.

(** ** Minting succeeds whenever the supply stays in range *)
Lemma st_mint_ok p a s v :
  shares_sum (st_shares p) <= st_supply p -> st_supply p + s < W128 -> exists p', st_mint_shares p a s v = Some p'.
Proof.
  intros Hsum HW. unfold st_mint_shares. destruct (N.eqb_spec s 0); [eauto|].
  rewrite cadd_intro by done. cbn [mbind option_bind]. destruct v; [eauto|].
  unfold add_to_collection. cbn [st_set_supply st_shares].
  pose proof (shares_get_le (st_shares p) a). rewrite cadd_intro by lia. cbn [mbind option_bind]. eauto.
Qed.

Lemma st_mint2_ok p a s b r v :
  shares_sum (st_shares p) <= st_supply p -> st_supply p + (s + r) < W128 ->
  exists p1 p2, st_mint_shares p a s v = Some p1 /\ st_mint_shares p1 b r v = Some p2.
Proof.
  intros Hsum HW. destruct (st_mint_ok p a s v) as [p1 H1]; [done|lia|].
  pose proof H1 as Hi. apply st_mint_inv in Hi as [Hp1 _].
  destruct (st_mint_ok p1 b r v) as [p2 H2]; [| |eauto].
  - subst p1. st_unfold. destruct v; [lia|]. rewrite shares_sum_credit. lia.
  - subst p1. st_unfold. lia.
Qed.

Lemma st_distribute_ok p e ex rid bps tid x v p' ex' rid' bps' v' :
  st_distribute_admin_fee p e ex rid bps tid x v = Some p' ->
  shares_sum (st_shares p) <= st_supply p -> st_supply p < W128 -> bps' <= FEE_DIVISOR ->
  exists p'', st_distribute_admin_fee p e ex' rid' bps' tid x v' = Some p'' /\
    st_c p'' = st_c p' /\ st_supply p'' = st_supply p'.
Proof.
  intros H Hsum HsW Hb.
  pose proof (st_distribute_inv _ _ _ _ _ _ _ _ _ H) as (rates & dep & sh & fee & c & m & Hr & Hdep & Hlp & Hc & HcW & Hp' & _ & HW & _).
  assert (Hex : exists p'', st_distribute_admin_fee p e ex' rid' bps' tid x v' = Some p'').
  { unfold st_distribute_admin_fee in H |- *. unfold vget in *.
    apply bind_Some in H as (rates' & Hr' & H). rewrite Hr'. cbn [mbind option_bind].
    apply bind_Some in H as (dep' & Hdep' & H). rewrite Hdep'. cbn [mbind option_bind].
    apply bind_Some in H as ([sh' fee'] & Hlp' & H). rewrite Hlp'. cbn [mbind option_bind].
    apply bind_Some in H as (c1 & Hc1 & H). rewrite Hc1. cbn [mbind option_bind].
    apply bind_Some in H as (c2 & Hc2 & H). rewrite Hc2. cbn [mbind option_bind].
    apply bind_Some in H as (c' & Hc' & H). rewrite Hc'. cbn [mbind option_bind].
    rewrite Hr in Hr'. injection Hr' as <-. apply vset_Some in Hdep' as [-> _]. rewrite <- Hdep in Hlp'.
    rewrite Hlp in Hlp'. injection Hlp' as <- <-. clear H.
    specialize (HW HsW).
    assert (exists rs, (if 0 <? bps' then u128_ratio sh bps' FEE_DIVISOR else Some 0) = Some rs /\ rs <= sh) as (rs & -> & Hle).
    { destruct (0 <? bps'); [|exists 0; split; [done|lia]].
      destruct (ratio_defined sh bps') as [E Hle]; [lia|done|]. eauto. }
    cbn [mbind option_bind]. rewrite csub_intro by done.
    destruct (st_mint2_ok (st_set_c p c') rid' rs ex' (sh - rs) v') as (p1 & p2 & H1 & H2).
    - exact Hsum.
    - replace (rs + (sh - rs)) with sh by lia. exact HW.
    - rewrite H1. cbn [mbind option_bind]. eauto. }
  destruct Hex as [p'' H'']. exists p''. split; [done|].
  apply st_distribute_inv in H'' as (rates2 & dep2 & sh2 & fee2 & c2 & m2 & Hr2 & Hdep2 & Hlp2 & Hc2 & _ & -> & _).
  rewrite Hr in Hr2. injection Hr2 as <-. subst dep dep2. rewrite Hlp in Hlp2. injection Hlp2 as <- <-.
  rewrite Hc in Hc2. injection Hc2 as <-. subst p'. st_unfold. auto.
Qed.

(** The result of a swap depends neither on who receives the fee nor on view mode. *)
Lemma st_swap_indep p e ti a to mn f v p' out mn' f' v' :
  st_wf p -> st_swap p e ti a to mn f v = Some (p', out) ->
  mn' <= out -> admin_fee_bps f' = admin_fee_bps f ->
  (forall rid rfee, referral_info f' = Some (rid, rfee) -> rfee <= FEE_DIVISOR) ->
  (v' = true \/ st_dec p to <= kept_decimals (st_kind p)) ->
  exists p'', st_swap p e ti a to mn' f' v' = Some (p'', out) /\ st_c p'' = st_c p' /\ st_supply p'' = st_supply p'.
Proof.
  intros Hwf H Hmn Hbps Href Hdec. unfold st_swap in H |- *.
  apply bind_Some in H as ([] & Hne & H). rewrite Hne. cbn [mbind option_bind].
  apply bind_Some in H as (ix & Hix & H). rewrite Hix. cbn [mbind option_bind].
  apply bind_Some in H as (iy & Hiy & H). rewrite Hiy. cbn [mbind option_bind].
  apply bind_Some in H as ([] & Hval & H). rewrite Hval. cbn [mbind option_bind].
  apply bind_Some in H as (rates & Hr & H). rewrite Hr. cbn [mbind option_bind].
  apply bind_Some in H as (r & Hsw & H).
  replace (st_internal_get_return p (pe_now e) rates ix a iy f') with (Some r).
  2: { rewrite <- Hsw. unfold st_internal_get_return, fees_new. now rewrite Hbps. }
  cbn [mbind option_bind].
  apply bind_Some in H as (amt & Hamt & H). rewrite Hamt. cbn [mbind option_bind].
  apply bind_Some in H as ([] & _ & H). apply bind_Some in H as ([] & Hlog & H).
  apply bind_Some in H as (c1 & Hc1 & H). apply bind_Some in H as (c2 & Hc2 & H). cbv zeta in H.
  apply bind_Some in H as ([] & Hres & H). apply bind_Some in H as (p2 & H2 & H). injection H as -> ->.
  rewrite ensure_intro by (now apply N.leb_le). cbn [mbind option_bind].
  replace (if v' then Some () else _ ← st_from_c p (sr_fee r) iy; _ ← st_from_c p (sr_admin_fee r) iy; Some ())
    with (Some ()).
  2: { destruct Hdec as [->|Hdec]; [done|]. destruct v'; [done|]. unfold st_from_c, vget in Hamt |- *.
    apply bind_Some in Hamt as (d & Hd & _). apply position_lookup in Hiy.
    rewrite (st_dec_idx p iy to d Hwf Hiy Hd) in Hdec. rewrite Hd. cbn [mbind option_bind].
    destruct (from_c_ok (st_kind p) d (sr_fee r) Hdec) as [? ->].
    destruct (from_c_ok (st_kind p) d (sr_admin_fee r) Hdec) as [? ->]. done. }
  cbn [mbind option_bind]. rewrite Hc1. cbn [mbind option_bind]. rewrite Hc2. cbn [mbind option_bind].
  cbv zeta. rewrite Hres. cbn [mbind option_bind]. rewrite Hbps.
  destruct Hwf as (_ & _ & _ & _ & HsW & Hsum & _).
  destruct ((0 <? admin_fee_bps f) && (0 <? sr_admin_fee r)).
  2: { injection H2 as <-. cbn [mbind option_bind]. eauto. }
  assert (Hd : exists ex rid bps, st_distribute_admin_fee (st_set_c p c2) e ex rid bps iy (sr_admin_fee r) v = Some p').
  { destruct (referral_info f) as [[rid rfee]|]; [|eauto]. case_bool_decide; eauto. }
  destruct Hd as (ex & rid & bps & Hd). clear H2.
  assert (Hall : forall ex' rid' bps', bps' <= FEE_DIVISOR -> exists p'',
    st_distribute_admin_fee (st_set_c p c2) e ex' rid' bps' iy (sr_admin_fee r) v' = Some p'' /\ 
    st_c p'' = st_c p' /\ st_supply p'' = st_supply p').
  { intros ex' rid' bps' Hb. eapply st_distribute_ok; [exact Hd| |exact HsW|exact Hb].
    st_unfold. lia. }
  destruct (referral_info f') as [[rid' rfee']|].
  - specialize (Href _ _ eq_refl). case_bool_decide.
    + destruct (Hall (exchange_id f') rid' rfee') as (p'' & -> & ? & ?); [done|]. cbn [mbind option_bind]. eauto.
    + destruct (Hall (exchange_id f') rid' 0) as (p'' & -> & ? & ?); [unfold FEE_DIVISOR; lia|]. cbn [mbind option_bind]. eauto.
  - destruct (Hall (exchange_id f') (exchange_id f') 0) as (p'' & -> & ? & ?); [unfold FEE_DIVISOR; lia|].
    cbn [mbind option_bind]. eauto.
Qed.

(** ** The trade and the curve *)
Lemma st_swap_curve now p e ti a to mn f v p' out :
  st_reachable now p -> now <= pe_now e -> pe_now e < 2 ^ 64 ->
  st_swap p e ti a to mn f v = Some (p', out) ->
  exists ix iy rates rated ri ro xr yr gross fee D,
    st_tokens p !! ix = Some ti /\ st_tokens p !! iy = Some to /\
    st_get_rates p e = Some rates /\ rates !! ix = Some ri /\ rates !! iy = Some ro /\
    rate_balances (st_c p) rates = Some rated /\ rated !! ix = Some xr /\ rated !! iy = Some yr /\
    st_D p (pe_now e) rates (st_c p) = Some D /\
    gross <= yr /\ fee = gross * st_fee p / FEE_DIVISOR /\ fee <= gross /\
    out = in_token_units (kept_decimals (st_kind p)) (st_dec p to) ((gross - fee) * PRECISION / ro) /\
    (0 < gross ->
     on_or_above_curve (st_get_amp p (pe_now e)) (N.of_nat (length rated)) D
       (xr + in_kept_units (kept_decimals (st_kind p)) (st_dec p ti) a * ri / PRECISION)
       (others ix iy rated) (yr - gross)).
Proof.
  intros Hreach Hle HW H. pose proof (st_reachable_wf _ _ Hreach) as Hwf.
  pose proof (st_reachable_amp _ _ Hreach) as Hamp. rewrite <- W64_pow in HW.
  apply st_swap_inv in H as (ix & iy & rates & r & x & y & di & do_ & cin & m & s2 & adm & Hne & Hixy & Hti & Hto & _ & Hrates & Hdi & Hdo
    & Hx & Hy & Hcin & Hsw & -> & _).
  apply swap_to_inv in Hsw as (ri & ro & x' & y' & rated & xr & yr & yn & trade & admin & Hri & Hro & Hx' & Hy' & Hrated
    & Hmx & Hmy & Hxr & Hyr & Hri0 & Hro0 & Hcy & Hyn & HxW & Htrade & _ & Htr & _ & _ & _ & Hsr & _).
  cbn [st_curve cv_rates] in *. apply to_c_kept in Hcin. subst cin.
  pose proof (compute_y_d _ _ _ _ _ _ Hcy) as [[D HD] _].
  pose proof (st_amp_value now p (pe_now e) rates Hamp Hle HW) as HA.
  pose proof (compute_y_above _ _ _ _ _ _ _ _ HA HD Hcy) as Habove.
  exists ix, iy, rates, rated, ri, ro, xr, yr, (yr - yn - 1), trade, D.
  rewrite (st_dec_idx p ix ti di Hwf Hti Hdi), (st_dec_idx p iy to do_ Hwf Hto Hdo).
  split_and!; auto.
  - unfold st_D, compute_d_with_rates. cbn [st_curve cv_rates]. rewrite Hrated. exact HD.
  - lia.
  - now rewrite Hsr.
  - intros Hg. replace (yr - (yr - yn - 1)) with (yn + 1) by lia. exact Habove.
Qed.

(** For a stable pool the recorded reserves after the trade, fees included, are above the curve. *)
Lemma st_swap_final_curve now p e ti a to mn f v p' out :
  st_reachable now p -> now <= pe_now e -> pe_now e < 2 ^ 64 -> st_kind p = KStable ->
  st_swap p e ti a to mn f v = Some (p', out) -> 0 < out ->
  exists ix iy D,
    st_tokens p !! ix = Some ti /\ st_tokens p !! iy = Some to /\
    st_D p (pe_now e) (map (fun _ => PRECISION) (st_tokens p)) (st_c p) = Some D /\
    on_or_above_curve (st_get_amp p (pe_now e)) (N.of_nat (length (st_tokens p))) D
      (st_kept p' ti) (others ix iy (st_c p)) (st_kept p' to).
Proof.
  intros Hreach Hle HW Hk H Hout. pose proof (st_reachable_wf _ _ Hreach) as Hwf.
  pose proof (st_reachable_amp _ _ Hreach) as Hamp. rewrite <- W64_pow in HW.
  apply st_swap_inv in H as (ix & iy & rates & r & x & y & di & do_ & cin & m & s2 & adm & Hne & Hixy & Hti & Hto & _ & Hrates & Hdi & Hdo
    & Hx & Hy & Hcin & Hsw & Hout' & _ & _ & Hadm & _ & _ & Hp' & _).
  unfold st_get_rates in Hrates. rewrite Hk in Hrates. injection Hrates as <-.
  pose proof Hwf as (Hnd & Hld & Hlc & HcW & _).
  apply swap_to_inv in Hsw as (ri & ro & x' & y' & rated & xr & yr & yn & trade & admin & Hri & Hro & Hx' & Hy' & Hrated
    & Hmx & Hmy & Hxr & Hyr & Hri0 & Hro0 & Hcy & Hyn & HxW & Htrade & Hadmin & Htr & Had & Hns & Hnd' & Hsr & Had' & _).
  cbn [st_curve cv_rates] in *.
  rewrite rate_balances_unit in Hrated by (try done; lia). injection Hrated as <-.
  apply list_lookup_fmap_Some in Hri as (? & _ & ->). apply list_lookup_fmap_Some in Hro as (? & _ & ->).
  rewrite unit_back in Hns, Hnd', Hsr, Had'.
  rewrite N.div_mul in Hns, HxW, Hcy by (pose proof PRECISION_pos; lia).
  pose proof (compute_y_d _ _ _ _ _ _ Hcy) as [[D HD] _].
  pose proof (st_amp_value now p (pe_now e) (map (fun _ => PRECISION) (st_tokens p)) Hamp Hle HW) as HA.
  pose proof (compute_y_above _ _ _ _ _ _ _ _ HA HD Hcy) as Habove.
  assert (Htok : st_tokens p' = st_tokens p) by now subst.
  assert (HcC : st_c p' = <[iy := sr_new_destination r + adm]> (<[ix := sr_new_source r]> (st_c p))) by now subst. clear Hp'.
  pose proof (lookup_lt_Some _ _ _ Hx) as Lx. pose proof (lookup_lt_Some _ _ _ Hy) as Ly.
  exists ix, iy, D. split_and!; auto.
  - unfold st_D, compute_d_with_rates. cbn [st_curve cv_rates]. rewrite rate_balances_unit by (try done; lia). exact HD.
  - unfold st_kept. rewrite HcC, Htok.
    rewrite (beside_idx _ ix ti _ (sr_new_source r) Hnd Hti).
    2: { rewrite list_lookup_insert_ne, list_lookup_insert; auto. }
    rewrite (beside_idx _ iy to _ (sr_new_destination r + adm) Hnd Hto).
    2: { rewrite list_lookup_insert; [done|]. now rewrite insert_length. }
    rewrite Hns, <- Hlc. apply (above_mono _ _ _ _ _ (yn + 1)); [lia| |exact Habove].
    rewrite Hnd'. assert (Hpos : 0 < sr_swapped r).
    { destruct (N.eq_0_gt_0_cases (sr_swapped r)) as [E|]; [|done]. exfalso. rewrite Hout', E in Hout. unfold in_token_units in Hout.
      destruct (do_ <=? _); [rewrite div_zero_l in Hout|]; lia. }
    rewrite Hsr in Hpos. subst adm. rewrite Had'. lia.
Qed.

(** ** Reserves in kept decimals *)
Lemma st_swap_kept p e ti a to mn f p' out :
  st_wf p -> st_swap p e ti a to mn f false = Some (p', out) ->
  exists paid,
    st_kept p' ti <= st_kept p ti + in_kept_units (kept_decimals (st_kind p)) (st_dec p ti) a /\
    st_kept p' to + paid <= st_kept p to /\
    out = in_token_units (kept_decimals (st_kind p)) (st_dec p to) paid /\
    min_reserve (st_kind p) <= st_kept p' to /\
    (forall t, t <> ti -> t <> to -> st_kept p' t = st_kept p t).
Proof.
  intros Hwf H.
  apply st_swap_inv in H as (ix & iy & rates & r & x & y & di & do_ & cin & m & s2 & adm & Hne & Hixy & Hti & Hto & _ & _ & Hdi & Hdo
    & Hx & Hy & Hcin & Hsw & -> & _ & Hmin & Hadm & HW1 & HW2 & Hp' & _).
  assert (Htok : st_tokens p' = st_tokens p) by now subst.
  assert (HcC : st_c p' = <[iy := sr_new_destination r + adm]> (<[ix := sr_new_source r]> (st_c p))) by now subst. clear Hp'.
  apply swap_to_conserves in Hsw as (x' & y' & Hx' & Hy' & Hin & Hout & _).
  rewrite Hx in Hx'; injection Hx' as <-. rewrite Hy in Hy'; injection Hy' as <-.
  pose proof (lookup_lt_Some _ _ _ Hx) as Lx. pose proof (lookup_lt_Some _ _ _ Hy) as Ly.
  pose proof Hwf as (Hnd & _).
  exists (sr_swapped r). rewrite (st_dec_idx p ix ti di Hwf Hti Hdi), (st_dec_idx p iy to do_ Hwf Hto Hdo).
  unfold st_kept. rewrite HcC, Htok.
  rewrite (beside_idx _ ix ti _ (sr_new_source r) Hnd Hti).
  2: { rewrite list_lookup_insert_ne, list_lookup_insert; auto. }
  rewrite (beside_idx _ iy to _ (sr_new_destination r + adm) Hnd Hto).
  2: { rewrite list_lookup_insert; [done|]. now rewrite insert_length. }
  rewrite (beside_idx _ ix ti _ x Hnd Hti Hx), (beside_idx _ iy to _ y Hnd Hto Hy).
  apply to_c_kept in Hcin. subst cin adm. split_and!; auto; try lia.
  intros t H1 H2. destruct (st_token_cases p t Hwf) as [Hn|(i & d & c & Ht & Hd & Hc)].
  { rewrite !beside_notin by congruence. done. }
  rewrite (beside_idx _ i t _ c Hnd Ht Hc). apply (beside_idx _ i t _ c Hnd Ht).
  rewrite !list_lookup_insert_ne; [done| |]; intros ->; congruence.
Qed.

Lemma st_remove_shares_min p s sh mins v p' out t :
  st_wf p -> st_remove_by_shares p s sh mins v = Some (p', out) -> t ∈ st_tokens p -> min_reserve (st_kind p) <= st_kept p' t.
Proof.
  intros Hwf H Hin. apply st_remove_shares_inv in H as (c' & m & Hlen & Hred & Hle & Hp' & _).
  apply st_redeem_all_Some in Hred as (_ & _ & _ & _ & Hall).
  destruct (st_token_cases p t Hwf) as [Hn|(i & d & c & Ht & Hd & Hc)]; [done|].
  destruct (Hall i d c Hd Hc) as (mn & a & l & _ & _ & Hl & Hr).
  apply st_redeem_Some in Hr as (_ & _ & _ & Hm & _). destruct Hwf as (Hnd & _).
  unfold st_kept. subst p'. st_unfold. now rewrite (beside_idx _ i t _ l Hnd Ht Hl).
Qed.

Lemma st_remove_tokens_min p e s am mx f v p' burn t :
  st_wf p -> st_remove_by_tokens p e s am mx f v = Some (p', burn) -> t ∈ st_tokens p ->
  min_reserve (st_kind p) <= st_kept p' t.
Proof.
  intros Hwf H Hin.
  apply st_remove_tokens_inv in H as (rates & cam & c' & fee & m & s2 & Hlen & Hcam & Hc' & HF & _ & _ & _ & Hb & Hp' & _).
  apply vsub_Forall2 in Hc' as (Hl & -> & _).
  destruct (st_token_cases p t Hwf) as [Hn|(i & d & c & Ht & Hd & Hc)]; [done|].
  destruct (lookup_lt_is_Some_2 cam i) as [x Hx]; [rewrite <- Hl; eauto using lookup_lt_Some|].
  assert (Hz : zip_with N.sub (st_c p) cam !! i = Some (c - x)).
  { rewrite lookup_zip_with, Hc. cbn. rewrite Hx. done. }
  rewrite Forall_lookup in HF. specialize (HF _ _ Hz). destruct Hwf as (Hnd & _).
  unfold st_kept. subst p'. st_unfold. now rewrite (beside_idx _ i t _ _ Hnd Ht Hz).
Qed.

(** ** Shares against the invariant D *)
Lemma part_bound S d0 d1 m : 0 < d0 -> m <= S * (d1 - d0) / d0 -> d0 < d1 -> (S + m) * d0 <= S * d1.
Proof.
  intros H0 Hm Hd. pose proof (div_mul_le (S * (d1 - d0)) d0 H0) as Hq.
  set (q := S * (d1 - d0) / d0) in *. clearbody q. nia.
Qed.

Lemma bps_le fee bps : bps <= FEE_DIVISOR -> fee * bps / FEE_DIVISOR <= fee.
Proof. intros. apply N.div_le_upper_bound; [unfold FEE_DIVISOR; lia|]. nia. Qed.

Lemma st_add_D p e s am mn f v p' sh :
  st_add_liquidity p e s am mn f v = Some (p', sh) -> 0 < st_supply p -> admin_fee_bps f <= FEE_DIVISOR ->
  exists rates d0 d1,
    st_get_rates p e = Some rates /\ st_D p (pe_now e) rates (st_c p) = Some d0 /\
    st_D p (pe_now e) rates (st_c p') = Some d1 /\ 0 < d0 /\ d0 < d1 /\
    st_supply p' - st_supply p <= st_supply p * (d1 - d0) / d0 /\ sh <= st_supply p' - st_supply p /\
    st_supply p' * d0 <= st_supply p * d1.
Proof.
  intros H HS Hf.
  apply st_add_inv in H as (rates & cam & c' & fee & m & s2 & _ & Hr & Hcalc & _ & Hcam & Hc' & -> & _ & _ & Hs2 & _).
  unfold st_calc_add_liquidity in Hcalc. rewrite Hcam in Hcalc. cbn [mbind option_bind] in Hcalc.
  destruct (N.eqb_spec (st_supply p) 0) as [E|_]; [lia|].
  apply deposit_inv in Hcalc as (d0 & d1 & new & H0 & Hnew & H1 & Hp & Hlt & Hsum).
  rewrite Hc' in Hnew. injection Hnew as <-. st_unfold.
  pose proof (bps_le fee _ Hf) as Hle. rewrite <- Hs2 in Hle.
  exists rates, d0, d1. split_and!; auto; try dlia.
  rewrite <- N.add_assoc. apply part_bound; [done|dlia|done].
Qed.

Lemma st_add_first p e s am mn f v p' sh :
  st_add_liquidity p e s am mn f v = Some (p', sh) -> st_supply p = 0 ->
  exists rates cam,
    st_get_rates p e = Some rates /\ st_amounts_to_c p am = Some cam /\
    st_D p (pe_now e) rates cam = Some sh /\ st_supply p' = sh.
Proof.
  intros H HS.
  apply st_add_inv in H as (rates & cam & c' & fee & m & s2 & _ & Hr & Hcalc & _ & Hcam & Hc' & -> & _ & _ & Hs2 & _).
  unfold st_calc_add_liquidity in Hcalc. rewrite Hcam in Hcalc. cbn [mbind option_bind] in Hcalc.
  rewrite HS in Hcalc. cbn [N.eqb] in Hcalc.
  apply bind_Some in Hcalc as ([] & _ & Hcalc). apply bind_Some in Hcalc as ([] & _ & Hcalc).
  apply bind_Some in Hcalc as (d & Hd & Hcalc). apply bind_Some in Hcalc as (s1 & Hs1 & Hcalc).
  injection Hcalc as <- <-. apply fit_Some in Hs1 as [-> _]. rewrite N.mul_0_l, div_zero_l in Hs2. subst s2.
  exists rates, cam. st_unfold. split_and!; auto. lia.
Qed.

Lemma st_remove_tokens_D p e s am mx f v p' burn :
  st_remove_by_tokens p e s am mx f v = Some (p', burn) -> admin_fee_bps f <= FEE_DIVISOR ->
  exists rates d0 d1,
    st_get_rates p e = Some rates /\ st_D p (pe_now e) rates (st_c p) = Some d0 /\
    st_D p (pe_now e) rates (st_c p') = Some d1 /\ d1 < d0 /\
    st_supply p * (d0 - d1) / d0 <= burn /\
    st_supply p * (d0 - d1) / d0 <= st_supply p - st_supply p' /\ st_supply p' <= st_supply p.
Proof.
  intros H Hf.
  apply st_remove_tokens_inv in H as (rates & cam & c' & fee & m & s2 & Hlen & Hcam & Hc' & _ & _ & Hr & Hlp & Hb & -> & Hs2 & _).
  apply withdraw_inv in Hlp as (d0 & d1 & new & H0 & Hnew & H1 & Hp & Hlt & Hburn & Hle').
  rewrite Hc' in Hnew. injection Hnew as <-. st_unfold.
  pose proof (bps_le fee _ Hf) as Hle. rewrite <- Hs2 in Hle.
  exists rates, d0, d1. split_and!; auto; dlia.
Qed.

(** The admin's part of a trading fee is put back as liquidity: it too buys at most its share. *)
Lemma st_swap_D p e ti a to mn f v p' out :
  st_swap p e ti a to mn f v = Some (p', out) ->
  st_supply p' = st_supply p \/
  exists rates c_mid d0 d1,
    st_get_rates p e = Some rates /\ st_D p (pe_now e) rates c_mid = Some d0 /\
    st_D p (pe_now e) rates (st_c p') = Some d1 /\ 0 < d0 /\ d0 < d1 /\ length c_mid = length (st_c p') /\
    (forall i c, c_mid !! i = Some c -> st_tokens p !! i <> Some to -> st_c p' !! i = Some c) /\
    st_supply p' * d0 <= st_supply p * d1.
Proof.
  intros H.
  apply st_swap_inv in H as (ix & iy & rates & r & x & y & di & do_ & cin & m & s2 & adm & Hne & Hixy & Hti & Hto & _ & Hr & Hdi & Hdo
    & Hx & Hy & Hcin & Hsw & -> & _ & Hmin & Hadm & HW1 & HW2 & -> & _ & _ & _ & _ & Hlp).
  st_unfold. destruct Hlp as [->|(dep & fee & _ & Hdep & Hlp)]; [left; lia|]. right.
  apply deposit_inv in Hlp as (d0 & d1 & new & H0 & Hnew & H1 & Hp & Hlt & Hsum).
  pose proof (lookup_lt_Some _ _ _ Hx) as Lx. pose proof (lookup_lt_Some _ _ _ Hy) as Ly.
  assert (Enew : new = <[iy:=sr_new_destination r + adm]> (<[ix:=sr_new_source r]> (st_c p))).
  { apply vadd_Forall2 in Hnew as (Hl & -> & _). subst dep. apply list_eq. intros i.
    rewrite lookup_zip_with. destruct (decide (i = iy)) as [->|Hi].
    - rewrite !list_lookup_insert; rewrite ?repeat_length, ?insert_length; try done.
    - rewrite !(list_lookup_insert_ne _ iy i) by auto.
      destruct (<[ix:=sr_new_source r]> (st_c p) !! i) as [z|] eqn:Hz; [|done].
      cbn [mbind option_bind]. pose proof (lookup_lt_Some _ _ _ Hz) as Lz. rewrite insert_length in Lz.
      assert (Hrep : forall n j, (j < n)%nat -> repeat 0 n !! j = Some 0).
      { induction n as [|n IHn]; intros [|j] Hj; try lia; cbn; [done|]. apply IHn. lia. }
      rewrite Hrep by done. cbn. f_equal. lia. }
  subst new. eexists rates, _, d0, d1. split_and!; try eassumption.
  - rewrite !insert_length. done.
  - intros i c Hc Hi. rewrite list_lookup_insert_ne in Hc |- * by congruence. done.
  - apply part_bound; [done|dlia|done].
Qed.
