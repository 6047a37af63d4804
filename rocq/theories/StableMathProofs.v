(** * Proofs about the stable-swap mathematics *)
From Verif Require Import Base BaseLemmas SimplePool StableMath.

Lemma PRECISION_pos : 0 < PRECISION. Proof. vm_compute; reflexivity. Qed.

(** ** Rate conversion *)
Lemma mul_rate_Some a r x : mul_rate a r = Some x -> x = a * r / PRECISION /\ x < W128.
Proof. unfold mul_rate; intros; inv; subst; auto. Qed.
Lemma div_rate_Some a r x : div_rate a r = Some x -> x = a * PRECISION / r /\ 0 < r /\ x < W128.
Proof. unfold div_rate; intros; inv; subst; auto. Qed.

(** The constant rate PRECISION converts nothing: this is the stable pool. *)
Lemma mul_rate_unit a : a < W128 -> mul_rate a PRECISION = Some a.
Proof.
  intros. unfold mul_rate. rewrite N.div_mul by (pose proof PRECISION_pos; lia). now apply fit_intro.
Qed.
Lemma div_rate_unit a : a < W128 -> div_rate a PRECISION = Some a.
Proof.
  intros. unfold div_rate. rewrite cdiv_intro by apply PRECISION_pos.
  rewrite N.div_mul by (pose proof PRECISION_pos; lia). now apply fit_intro.
Qed.
Lemma rate_balances_unit {A} (ts : list A) cs :
  length ts = length cs -> Forall (fun c => c < W128) cs ->
  rate_balances cs (map (fun _ => PRECISION) ts) = Some cs.
Proof.
  revert cs; induction ts as [|t ts IH]; intros [|c cs] Hl Hb; try discriminate Hl; [done|].
  inversion Hb; subst. cbn [rate_balances map]. rewrite mul_rate_unit by done. cbn [mbind option_bind].
  rewrite IH by (try done; cbn in Hl; congruence). done.
Qed.

Lemma rate_balances_lookup cs rs xs i x :
  rate_balances cs rs = Some xs -> xs !! i = Some x ->
  exists c r, cs !! i = Some c /\ rs !! i = Some r /\ mul_rate c r = Some x.
Proof.
  revert rs xs i; induction cs as [|c cs IH]; intros [|r rs] xs i H Hi; cbn [rate_balances] in H; inv; subst;
    try (destruct i; discriminate).
  destruct i as [|i]; cbn in Hi.
  - injection Hi as <-. exists c, r. auto.
  - apply (IH rs _ i) in Hi as (? & ? & ? & ? & ?); [|done]. eauto.
Qed.
Lemma rate_balances_length cs rs xs :
  rate_balances cs rs = Some xs -> length xs = Nat.min (length cs) (length rs).
Proof.
  revert rs xs; induction cs as [|c cs IH]; intros [|r rs] xs H; cbn [rate_balances] in H; inv; subst; try done.
  match goal with H : rate_balances _ _ = _ |- _ => apply IH in H end. cbn [length]. lia.
Qed.

(** A balance converted to rated units and back is not larger than before; conversions of parts
    of a balance sum to at most the conversion of the whole. *)
Lemma rate_back a b r : 0 < r -> (a * r / PRECISION + b * r / PRECISION) * PRECISION / r <= a + b.
Proof.
  intros Hr. apply N.div_le_upper_bound; [lia|]. pose proof PRECISION_pos as HP.
  pose proof (div_mul_le (a * r) _ HP). pose proof (div_mul_le (b * r) _ HP). nia.
Qed.
Lemma rate_back3 y s t u r :
  0 < r -> s + t + u <= y * r / PRECISION ->
  s * PRECISION / r + t * PRECISION / r + u * PRECISION / r <= y.
Proof.
  intros Hr H. pose proof PRECISION_pos as HP. pose proof (div_mul_le (y * r) _ HP) as Hy.
  etransitivity; [apply N.add_le_mono_r, div_superadd; done|].
  etransitivity; [apply div_superadd; done|].
  apply N.div_le_upper_bound; [lia|]. nia.
Qed.

(** ** Fees *)
Lemma trade_fee_le f x y : fe_trade f <= FEE_DIVISOR -> trade_fee_of f x = Some y -> y <= x.
Proof.
  unfold trade_fee_of; intros Hf H. apply u128_ratio_Some in H as (-> & ? & _).
  apply N.div_le_upper_bound; [unfold FEE_DIVISOR; lia|]. nia.
Qed.

(** ** Swap *)
Lemma swap_to_inv cv ix a iy cs f r :
  swap_to cv ix a iy cs f = Some r ->
  exists ri ro x y rated xr yr yn trade admin,
    cv_rates cv !! ix = Some ri /\ cv_rates cv !! iy = Some ro /\
    cs !! ix = Some x /\ cs !! iy = Some y /\
    rate_balances cs (cv_rates cv) = Some rated /\
    mul_rate x ri = Some xr /\ mul_rate y ro = Some yr /\
    rated !! ix = Some xr /\ rated !! iy = Some yr /\
    0 < ri /\ 0 < ro /\
    compute_y cv (xr + a * ri / PRECISION) rated ix iy = Some yn /\ yn <= yr /\
    xr + a * ri / PRECISION < W128 /\
    trade = (yr - yn - 1) * fe_trade f / FEE_DIVISOR /\
    admin = trade * fe_admin f / FEE_DIVISOR /\
    trade <= yr - yn - 1 /\ (yr - yn - 1 - trade) + admin <= yr /\
    sr_new_source r = (xr + a * ri / PRECISION) * PRECISION / ri /\
    sr_new_destination r = (yr - (yr - yn - 1 - trade) - admin) * PRECISION / ro /\
    sr_swapped r = (yr - yn - 1 - trade) * PRECISION / ro /\
    sr_admin_fee r = admin * PRECISION / ro /\
    sr_fee r = trade * PRECISION / ro /\
    sr_new_source r < W128 /\ sr_new_destination r < W128 /\
    sr_swapped r < W128 /\ sr_admin_fee r < W128.
Proof.
  unfold swap_to, vget. intros H.
  apply bind_Some in H as (ri & Hri & H). apply bind_Some in H as (ro & Hro & H).
  apply bind_Some in H as (ain & Hain & H). apply bind_Some in H as (rated & Hrated & H).
  apply bind_Some in H as (xr & Hxr & H). apply bind_Some in H as (xx & Hxx & H).
  apply bind_Some in H as (y0 & Hy0 & H). apply bind_Some in H as (yn & Hyn & H).
  apply bind_Some in H as (yr & Hyr & H). apply bind_Some in H as (dy1 & Hdy1 & H).
  apply bind_Some in H as (trade & Htrade & H). apply bind_Some in H as (admin & Hadmin & H).
  apply bind_Some in H as (sw & Hsw & H). apply bind_Some in H as (t & Ht & H).
  apply bind_Some in H as (nd & Hnd & H). apply bind_Some in H as (ns & Hns & H).
  apply bind_Some in H as (r1 & H1 & H). apply bind_Some in H as (r2 & H2 & H).
  apply bind_Some in H as (r3 & H3 & H). apply bind_Some in H as (r4 & H4 & H).
  apply bind_Some in H as (r5 & H5 & H). apply mret_Some in H; subst r.
  pose proof Hxr as Hxr'. eapply rate_balances_lookup in Hxr as (x & ri' & Hx & Hri' & Hmx); [|exact Hrated].
  pose proof Hyr as Hyr'. eapply rate_balances_lookup in Hyr as (y & ro' & Hy & Hro' & Hmy); [|exact Hrated].
  rewrite Hri in Hri'; injection Hri' as <-. rewrite Hro in Hro'; injection Hro' as <-.
  apply mul_rate_Some in Hain as [-> _]. apply cadd_Some in Hxx as [-> HxW].
  apply fit_Some in Hyn as [-> _]. apply csub_Some in Hdy1 as [-> Hyle].
  apply u128_ratio_Some in Htrade as (-> & _ & _). apply u128_ratio_Some in Hadmin as (-> & _ & _).
  apply csub_Some in Hsw as [-> Hsw]. apply csub_Some in Ht as [-> Ht]. apply csub_Some in Hnd as [-> Hnd].
  apply cadd_Some in Hns as [-> Hns].
  apply div_rate_Some in H1 as (-> & Hri0 & H1). apply div_rate_Some in H2 as (-> & Hro0 & H2).
  apply div_rate_Some in H3 as (-> & _ & H3). apply div_rate_Some in H4 as (-> & _ & H4).
  apply div_rate_Some in H5 as (-> & _ & _).
  rewrite (N.add_comm (a * ri / PRECISION)) in Hy0, HxW.
  cbn [sr_new_source sr_new_destination sr_swapped sr_admin_fee sr_fee].
  eexists ri, ro, x, y, rated, xr, yr, y0, _, _. split_and!; try eassumption; try reflexivity. dlia.
Qed.

(** C22 at the level of the calculator: reserves in comparable units. *)
Lemma swap_to_conserves cv ix a iy cs f r :
  swap_to cv ix a iy cs f = Some r ->
  exists x y, cs !! ix = Some x /\ cs !! iy = Some y /\
    sr_new_source r <= x + a /\
    sr_new_destination r + sr_swapped r + sr_admin_fee r <= y /\
    sr_new_source r < W128 /\ sr_new_destination r < W128.
Proof.
  intros H. apply swap_to_inv in H as (ri & ro & x & y & rated & xr & yr & yn & trade & admin & Hri & Hro & Hx & Hy & _
    & Hmx & Hmy & _ & _ & Hri0 & Hro0 & _ & Hyn & HxW & _ & _ & Htr & Had & -> & -> & -> & -> & _ & HW1 & HW2 & _).
  apply mul_rate_Some in Hmx as [-> _]. apply mul_rate_Some in Hmy as [-> _].
  exists x, y. split_and!; auto.
  - apply rate_back; done.
  - apply rate_back3; [done|]. dlia.
Qed.

(** With the constant rate everything is exact. *)
Lemma unit_back a : a * PRECISION / PRECISION = a.
Proof. apply N.div_mul. pose proof PRECISION_pos; lia. Qed.

Lemma swap_to_unit cv ix a iy cs f r :
  swap_to cv ix a iy cs f = Some r ->
  cv_rates cv !! ix = Some PRECISION -> cv_rates cv !! iy = Some PRECISION ->
  exists x y, cs !! ix = Some x /\ cs !! iy = Some y /\
    sr_new_source r = x + a /\ sr_new_destination r + sr_swapped r + sr_admin_fee r = y.
Proof.
  intros H Hi Ho. apply swap_to_inv in H as (ri & ro & x & y & rated & xr & yr & yn & trade & admin & Hri & Hro & Hx & Hy & _
    & Hmx & Hmy & _ & _ & Hri0 & Hro0 & _ & Hyn & HxW & _ & _ & Htr & Had & -> & -> & -> & -> & _).
  rewrite Hi in Hri; injection Hri as <-. rewrite Ho in Hro; injection Hro as <-.
  apply mul_rate_Some in Hmx as [-> _]. apply mul_rate_Some in Hmy as [-> _].
  rewrite !unit_back in *. exists x, y. split_and!; auto. lia.
Qed.

(** ** The solver for y: one Newton step from anywhere rounds to a value [q] with
    [(q+1)^2 + (b - d) (q+1) > c]. *)
Lemma y_step_above w b c d y q :
  y_step w b c d y = Some q ->
  (Z.of_N c < (Z.of_N q + 1) * (Z.of_N q + 1) + (Z.of_N b - Z.of_N d) * (Z.of_N q + 1))%Z.
Proof.
  unfold y_step. intros H. inv. subst.
  match goal with H : 0 < ?den |- _ => rename H into Hpos end.
  pose proof (lt_div_succ (y ^ 2 + c) (y * 2 + b - d) Hpos) as Hq.
  set (q := (y ^ 2 + c) / (y * 2 + b - d)) in *. clearbody q.
  rewrite N.pow_2_r in Hq.
  assert (Hle : d <= y * 2 + b) by done.
  assert (HZ : (Z.of_N y * Z.of_N y + Z.of_N c < (Z.of_N q + 1) * (Z.of_N y * 2 + Z.of_N b - Z.of_N d))%Z).
  { clear - Hq Hle. zify. nia. }
  pose proof (Z.square_nonneg (Z.of_N q + 1 - Z.of_N y)) as Hsq. clear - HZ Hsq. lia.
Qed.

Lemma y_newton_above fuel w b c d y q :
  (0 < fuel)%nat -> y_newton fuel w b c d y = Some q ->
  (Z.of_N c < (Z.of_N q + 1) * (Z.of_N q + 1) + (Z.of_N b - Z.of_N d) * (Z.of_N q + 1))%Z.
Proof.
  revert y; induction fuel as [|fuel IH]; intros y Hf H; [lia|].
  cbn [y_newton] in H. apply bind_Some in H as (y' & Hs & H).
  destruct (close y' y); [apply mret_Some in H; subst; eauto using y_step_above|].
  destruct fuel; [cbn in H; apply mret_Some in H; subst; eauto using y_step_above|].
  eapply IH; [lia|exact H].
Qed.

(** ** Shares minted and burned *)
Lemma share_part_Some w S x d y : share_part w S x d = Some y -> y = S * x / d /\ 0 < d /\ y < W128.
Proof. unfold share_part; intros; inv; subst; auto. Qed.

Lemma deposit_inv cv dep old S f m fee :
  compute_lp_amount_for_deposit cv dep old S f = Some (m, fee) ->
  exists d0 d1 new,
    compute_d_with_rates cv old = Some d0 /\ vadd old dep = Some new /\
    compute_d_with_rates cv new = Some d1 /\ 0 < d0 /\ d0 < d1 /\ m + fee = S * (d1 - d0) / d0.
Proof.
  unfold compute_lp_amount_for_deposit. intros H.
  apply bind_Some in H as (d0 & Hd0 & H). apply bind_Some in H as (new & Hnew & H).
  apply bind_Some in H as (d1 & Hd1 & H). apply bind_Some in H as ([] & Hlt & H).
  apply bind_Some in H as (new2 & _ & H). apply bind_Some in H as (d2 & Hd2 & H).
  apply bind_Some in H as (p2 & Hp2 & H). apply bind_Some in H as (mint & Hm & H).
  apply bind_Some in H as (p1 & Hp1 & H). apply bind_Some in H as (diff & Hdiff & H).
  apply bind_Some in H as (fe & Hfe & H). inv. subst.
  apply share_part_Some in Hdiff as (-> & Hpos & _). bool_inv.
  exists d0, d1, new. split_and!; auto. dlia.
Qed.

Lemma withdraw_inv cv wd old S f b fee :
  compute_lp_amount_for_withdraw cv wd old S f = Some (b, fee) ->
  exists d0 d1 new,
    compute_d_with_rates cv old = Some d0 /\ vsub old wd = Some new /\
    compute_d_with_rates cv new = Some d1 /\ 0 < d0 /\ d1 < d0 /\
    b = S * (d0 - d1) / d0 + fee /\ b <= S.
Proof.
  unfold compute_lp_amount_for_withdraw. intros H.
  apply bind_Some in H as (d0 & Hd0 & H). apply bind_Some in H as (new & Hnew & H).
  apply bind_Some in H as (d1 & Hd1 & H). apply bind_Some in H as ([] & Hlt & H).
  apply bind_Some in H as (new2 & _ & H). apply bind_Some in H as (d2 & Hd2 & H).
  apply bind_Some in H as (p2 & Hp2 & H). apply bind_Some in H as (burn & Hm & H).
  apply bind_Some in H as (p1 & Hp1 & H). apply bind_Some in H as (diff & Hdiff & H).
  apply bind_Some in H as (fe & Hfe & H). inv. subst.
  apply share_part_Some in Hdiff as (-> & Hpos & _). apply share_part_Some in Hm as (-> & _ & _). bool_inv.
  exists d0, d1, new. split_and!; auto.
  - dlia.
  - apply N.div_le_upper_bound; [lia|]. nia.
Qed.

(** ** Amplification *)
Lemma amp_between cv a :
  compute_amp_factor cv = Some a ->
  N.min (cv_init cv) (cv_target cv) <= a <= N.max (cv_init cv) (cv_target cv).
Proof.
  unfold compute_amp_factor. destruct (N.ltb_spec (cv_now cv) (cv_stop cv)) as [Hn|Hn]; intros H; inv; [|subst; lia].
  destruct (N.leb_spec (cv_init cv) (cv_target cv)) as [Hit|Hit]; inv; subst.
  - assert (Hd : (cv_target cv - cv_init cv) * (cv_now cv - cv_start cv) / (cv_stop cv - cv_start cv)
            <= cv_target cv - cv_init cv) by (apply N.div_le_upper_bound; nia). dlia.
  - assert (Hd : (cv_init cv - cv_target cv) * (cv_now cv - cv_start cv) / (cv_stop cv - cv_start cv)
            <= cv_init cv - cv_target cv) by (apply N.div_le_upper_bound; nia). dlia.
Qed.

(** The curve of a pool at another time. *)
Definition cv_at (cv : Curve) (t : N) : Curve :=
  mkCurve (cv_init cv) (cv_target cv) t (cv_start cv) (cv_stop cv) (cv_rates cv) (cv_w cv).

Lemma amp_defined cv :
  cv_init cv <= MAX_AMP -> cv_target cv <= MAX_AMP -> cv_now cv < W64 ->
  (cv_now cv < cv_stop cv -> cv_start cv <= cv_now cv) ->
  is_Some (compute_amp_factor cv).
Proof.
  intros Hi Ht Hn Hs. unfold compute_amp_factor.
  destruct (N.ltb_spec (cv_now cv) (cv_stop cv)) as [Hlt|Hge]; [|eauto].
  specialize (Hs Hlt).
  assert (HW : MAX_AMP * W64 + MAX_AMP < W128) by (vm_compute; reflexivity).
  rewrite (csub_intro (cv_stop cv)), (csub_intro (cv_now cv)) by lia. cbn [mbind option_bind].
  destruct (N.leb_spec (cv_init cv) (cv_target cv)) as [Hit|Hit].
  - rewrite csub_intro by done. cbn [mbind option_bind].
    rewrite cmul_intro by nia. cbn [mbind option_bind]. rewrite cdiv_intro by lia. cbn [mbind option_bind].
    rewrite cadd_intro; [eauto|].
    assert ((cv_target cv - cv_init cv) * (cv_now cv - cv_start cv) / (cv_stop cv - cv_start cv)
            <= cv_target cv - cv_init cv) by (apply N.div_le_upper_bound; nia). dlia.
  - rewrite csub_intro by lia. cbn [mbind option_bind].
    rewrite cmul_intro by nia. cbn [mbind option_bind]. rewrite cdiv_intro by lia. cbn [mbind option_bind].
    rewrite csub_intro; [eauto|].
    assert ((cv_init cv - cv_target cv) * (cv_now cv - cv_start cv) / (cv_stop cv - cv_start cv)
            <= cv_init cv - cv_target cv) by (apply N.div_le_upper_bound; nia). dlia.
Qed.

Lemma amp_after_stop cv : cv_stop cv <= cv_now cv -> compute_amp_factor cv = Some (cv_target cv).
Proof. intros. unfold compute_amp_factor. destruct (N.ltb_spec (cv_now cv) (cv_stop cv)); [lia|done]. Qed.

Lemma amp_at_start cv a :
  compute_amp_factor cv = Some a -> cv_now cv = cv_start cv -> cv_now cv < cv_stop cv -> a = cv_init cv.
Proof.
  unfold compute_amp_factor. intros H He Hlt.
  destruct (N.ltb_spec (cv_now cv) (cv_stop cv)) as [_|]; [|lia].
  inv. rewrite He, N.sub_diag in *.
  destruct (N.leb_spec (cv_init cv) (cv_target cv)); inv; subst; rewrite N.mul_0_r, div_zero_l; lia.
Qed.

Lemma amp_monotone cv t1 t2 a1 a2 :
  t1 <= t2 -> compute_amp_factor (cv_at cv t1) = Some a1 -> compute_amp_factor (cv_at cv t2) = Some a2 ->
  (cv_init cv <= cv_target cv -> a1 <= a2) /\ (cv_target cv <= cv_init cv -> a2 <= a1).
Proof.
  intros Ht H1 H2.
  pose proof (amp_between _ _ H1) as B1. pose proof (amp_between _ _ H2) as B2.
  unfold compute_amp_factor in H1, H2. cbn [cv_at cv_init cv_target cv_now cv_start cv_stop] in *.
  destruct (N.ltb_spec t2 (cv_stop cv)) as [L2|L2]; [|inv; subst; lia].
  destruct (N.ltb_spec t1 (cv_stop cv)) as [L1|L1]; [|lia].
  inv. destruct (N.leb_spec (cv_init cv) (cv_target cv)) as [Hit|Hit]; inv; subst.
  - assert ((cv_target cv - cv_init cv) * (t1 - cv_start cv) / (cv_stop cv - cv_start cv)
            <= (cv_target cv - cv_init cv) * (t2 - cv_start cv) / (cv_stop cv - cv_start cv))
      by (apply N.div_le_mono; nia). dlia.
  - assert ((cv_init cv - cv_target cv) * (t1 - cv_start cv) / (cv_stop cv - cv_start cv)
            <= (cv_init cv - cv_target cv) * (t2 - cv_start cv) / (cv_stop cv - cv_start cv))
      by (apply N.div_le_mono; nia). dlia.
Qed.
