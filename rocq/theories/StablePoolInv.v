(** * Reachable stable, rated and degen pools: invariants and derived facts *)
From Verif Require Import Base BaseLemmas SimplePool SpecSimple SimplePoolProofs SimplePoolInv StableMath
  StableMathProofs StablePool SpecStable StablePoolProofs.

(** ** Creation and the operations on shares *)
Lemma st_new_inv k ts ds amp fee p :
  st_new k ts ds amp fee = Some p ->
  p = mkStablePool k ts ds (repeat 0 (length ts)) fee ∅ 0 amp amp 0 0 /\
  Forall (fun d => MIN_DECIMAL <= d <= MAX_DECIMAL) ds /\ MIN_AMP <= amp <= MAX_AMP /\ fee < FEE_DIVISOR.
Proof.
  unfold st_new. intros H. apply bind_Some in H as ([] & Hd & H). apply ensure_Some in Hd.
  apply bind_Some in H as ([] & Ha & H). apply ensure_Some, andb_true_iff in Ha as [Ha1 Ha2].
  apply bind_Some in H as ([] & Hf & H). apply ensure_Some, N.ltb_lt in Hf.
  apply N.leb_le in Ha1, Ha2. inv. split_and!; auto.
  apply Forall_forall. intros d Hin. rewrite forallb_forall in Hd. apply elem_of_list_In, Hd, andb_true_iff in Hin as [H1 H2].
  apply N.leb_le in H1, H2. auto.
Qed.

Lemma st_new_wf k ts ds amp fee p :
  NoDup ts -> length ts = length ds -> st_new k ts ds amp fee = Some p -> st_wf p.
Proof.
  intros Hnd Hl H. apply st_new_inv in H as (-> & Hd & _ & Hf). unfold st_wf. st_unfold.
  split_and!; auto.
  - apply repeat_length.
  - apply Forall_forall. intros x Hx. apply elem_of_list_In, repeat_spec in Hx. subst. apply W128_pos.
  - apply W128_pos.
Qed.

Lemma st_transfer_inv p s r a p' :
  st_share_transfer p s r a = Some p' ->
  exists b bo, st_shares p !! s = Some b /\ a <= b /\
    <[s := b - a]> (st_shares p) !! r = Some bo /\ bo + a < W128 /\
    p' = st_set_shares p (<[r := bo + a]> (<[s := b - a]> (st_shares p))).
Proof. unfold st_share_transfer; intros H; inv; subst. do 2 eexists; split_and!; eauto. Qed.

Lemma st_register_inv p a p' :
  st_share_register p a = Some p' -> st_shares p !! a = None /\ p' = st_set_shares p (<[a := 0]> (st_shares p)).
Proof.
  unfold st_share_register, st_share_has_registered. intros H; inv; subst. bool_inv.
  apply eq_None_not_Some in Hx. auto.
Qed.

Lemma st_unregister_inv p a p' :
  st_share_unregister p a = Some p' -> st_shares p !! a = Some 0 /\ p' = st_set_shares p (delete a (st_shares p)).
Proof. unfold st_share_unregister. intros H; inv; subst. bool_inv. subst. auto. Qed.

Lemma st_ramp_inv p e a t p' :
  st_ramp_amplification p e a t = Some p' ->
  exists rates amp,
    st_get_rates p e = Some rates /\ compute_amp_factor (st_curve p (pe_now e) rates) = Some amp /\
    st_init_time p + MIN_RAMP_DURATION <= pe_now e /\ pe_now e + MIN_RAMP_DURATION <= t /\
    0 < a /\ a < MAX_AMP /\ a <= amp * MAX_AMP_CHANGE /\ amp <= a * MAX_AMP_CHANGE /\
    p' = st_set_amp p amp a (pe_now e) t.
Proof.
  unfold st_ramp_amplification. intros H.
  apply bind_Some in H as (t1 & Ht1 & H). apply bind_Some in H as ([] & H1 & H).
  apply bind_Some in H as (t2 & Ht2 & H). apply bind_Some in H as ([] & H2 & H).
  apply bind_Some in H as (rates & Hr & H). apply bind_Some in H as (amp & Hamp & H).
  apply bind_Some in H as ([] & H3 & H). apply bind_Some in H as (u & H4 & H). injection H as <-.
  apply cadd_Some in Ht1 as [-> _]. apply cadd_Some in Ht2 as [-> _].
  apply ensure_Some, N.leb_le in H1. apply ensure_Some, N.leb_le in H2.
  apply ensure_Some, andb_true_iff in H3 as [H3 H5]. apply N.ltb_lt in H3, H5.
  exists rates, amp. unfold MAX_AMP_CHANGE in *.
  destruct (N.leb_spec amp a) as [Hle|Hlt]; inv; subst; bool_inv; split_and!; auto; lia.
Qed.

Lemma st_stop_inv p e p' :
  st_stop_ramp p e = Some p' ->
  exists rates amp, st_get_rates p e = Some rates /\ compute_amp_factor (st_curve p (pe_now e) rates) = Some amp /\
    p' = st_set_amp p amp amp (pe_now e) (pe_now e).
Proof. unfold st_stop_ramp. intros H. inv. subst. eauto 6. Qed.

Lemma st_exec_wf p e o p' : st_wf p -> st_exec p e o = Some p' -> st_wf p'.
Proof.
  intros Hwf H. destruct o; cbn [st_exec] in H.
  - apply fmap_Some in H as ([q out] & H & ->). eapply st_wf_add; eauto.
  - apply fmap_Some in H as ([q out] & H & ->). eapply st_wf_remove_shares; eauto.
  - apply fmap_Some in H as ([q out] & H & ->). eapply st_wf_remove_tokens; eauto.
  - apply fmap_Some in H as ([q out] & H & ->). eapply st_wf_swap; eauto.
  - apply st_transfer_inv in H as (b & bo & Hb & Hab & Hr & _ & ->).
    destruct Hwf as (Hnd & Hld & Hlc & HcW & HsW & Hsum & Hdec & Hfee). unfold st_wf. st_unfold.
    split_and!; auto. rewrite <- Hsum. now apply shares_transfer_sum.
  - apply st_register_inv in H as [Hn ->].
    destruct Hwf as (Hnd & Hld & Hlc & HcW & HsW & Hsum & Hdec & Hfee). unfold st_wf. st_unfold.
    split_and!; auto.
    pose proof (shares_sum_insert (st_shares p) a 0) as Hs. unfold shares_get in Hs. rewrite Hn in Hs.
    cbn [default from_option Datatypes.id] in Hs. lia.
  - apply st_unregister_inv in H as [Hn ->].
    destruct Hwf as (Hnd & Hld & Hlc & HcW & HsW & Hsum & Hdec & Hfee). unfold st_wf. st_unfold.
    split_and!; auto.
    pose proof (msum_delete_gen (fun _ v => v) (st_shares p) a) as Hs. rewrite Hn in Hs. cbn [contrib] in Hs.
    unfold shares_sum in *. lia.
  - destruct (N.ltb_spec fee FEE_DIVISOR); [|discriminate]. inv; subst.
    destruct Hwf as (Hnd & Hld & Hlc & HcW & HsW & Hsum & Hdec & Hfee). unfold st_wf, st_modify_total_fee. st_unfold.
    split_and!; auto.
  - apply st_ramp_inv in H as (? & ? & _ & _ & _ & _ & _ & _ & _ & _ & ->). exact Hwf.
  - apply st_stop_inv in H as (? & ? & _ & _ & ->). exact Hwf.
Qed.

Lemma st_reachable_wf now p : st_reachable now p -> st_wf p.
Proof. induction 1; eauto using st_new_wf, st_exec_wf. Qed.

(** Kind, tokens and decimals never change. *)
Lemma st_exec_frame p e o p' :
  st_exec p e o = Some p' ->
  st_kind p' = st_kind p /\ st_tokens p' = st_tokens p /\ st_decimals p' = st_decimals p /\
  match o with
  | StRamp _ _ | StStopRamp => st_c p' = st_c p /\ st_shares p' = st_shares p /\ st_supply p' = st_supply p
  | _ => st_init_amp p' = st_init_amp p /\ st_target_amp p' = st_target_amp p /\
         st_init_time p' = st_init_time p /\ st_stop_time p' = st_stop_time p
  end.
Proof.
  intros H. destruct o; cbn [st_exec] in H.
  - apply fmap_Some in H as ([q out] & H & ->).
    apply st_add_inv in H as (? & ? & ? & ? & ? & ? & _ & _ & _ & _ & _ & _ & -> & _). done.
  - apply fmap_Some in H as ([q out] & H & ->).
    apply st_remove_shares_inv in H as (? & ? & _ & _ & _ & -> & _). done.
  - apply fmap_Some in H as ([q out] & H & ->).
    apply st_remove_tokens_inv in H as (? & ? & ? & ? & ? & ? & _ & _ & _ & _ & _ & _ & _ & _ & -> & _). done.
  - apply fmap_Some in H as ([q out] & H & ->).
    apply st_swap_inv in H as (? & ? & ? & ? & ? & ? & ? & ? & ? & ? & ? & ? & _ & _ & _ & _ & _ & _ & _ & _
    & _ & _ & _ & _ & _ & _ & _ & _ & _ & _ & -> & _). done.
  - apply st_transfer_inv in H as (b & bo & _ & _ & _ & _ & ->). done.
  - apply st_register_inv in H as [_ ->]. done.
  - apply st_unregister_inv in H as [_ ->]. done.
  - destruct (N.ltb_spec fee FEE_DIVISOR); [|discriminate]. inv; subst. done.
  - apply st_ramp_inv in H as (? & ? & _ & _ & _ & _ & _ & _ & _ & _ & ->). done.
  - apply st_stop_inv in H as (? & ? & _ & _ & ->). done.
Qed.

(** ** Amplification *)
Definition st_amp_ok (now : N) (p : StablePool) : Prop :=
  MIN_AMP <= st_init_amp p <= MAX_AMP /\ MIN_AMP <= st_target_amp p <= MAX_AMP /\ st_init_time p <= now /\ now < W64.

Lemma st_exec_amp_ok now p e o p' :
  st_amp_ok now p -> now <= pe_now e -> pe_now e < W64 -> st_exec p e o = Some p' ->
  st_amp_ok (pe_now e) p' /\ st_init_time p <= st_init_time p'.
Proof.
  intros (Hi & Ht & Hs & Hn) Hle HW H. pose proof (st_exec_frame _ _ _ _ H) as (_ & _ & _ & Hfr).
  unfold st_amp_ok. destruct o; try (destruct Hfr as (-> & -> & -> & _); split_and!; auto; lia); cbn [st_exec] in H.
  - apply st_ramp_inv in H as (rates & amp & _ & Hamp & Hday & _ & H0 & HM & _ & _ & ->).
    apply amp_between in Hamp. st_unfold. unfold st_curve in Hamp. cbn [cv_init cv_target] in Hamp.
    unfold MIN_AMP in *. split_and!; lia.
  - apply st_stop_inv in H as (rates & amp & _ & Hamp & ->).
    apply amp_between in Hamp. st_unfold. unfold st_curve in Hamp. cbn [cv_init cv_target] in Hamp.
    split_and!; lia.
Qed.

Lemma W64_pow : W64 = 2 ^ 64. Proof. reflexivity. Qed.

Lemma st_reachable_amp now p : st_reachable now p -> st_amp_ok now p.
Proof.
  induction 1 as [now k ts ds amp fee p Hnd Hl Hn H|now p e o p' Hr IH Hle HW H].
  - apply st_new_inv in H as (-> & _ & Ha & _). unfold st_amp_ok. st_unfold. rewrite W64_pow. split_and!; auto; lia.
  - rewrite <- W64_pow in HW. eapply st_exec_amp_ok; eauto.
Qed.

(** The effective amplification does not depend on the rates and is always defined. *)
Lemma st_amp_value now p t rates :
  st_amp_ok now p -> now <= t -> t < W64 ->
  compute_amp_factor (st_curve p t rates) = Some (st_get_amp p t).
Proof.
  intros (Hi & Ht & Hs & Hn) Hle HW.
  destruct (amp_defined (st_curve p t [])) as [a Ha]; cbn [st_curve cv_init cv_target cv_now cv_start cv_stop]; try lia.
  unfold st_get_amp. rewrite Ha. cbn [default from_option Datatypes.id]. exact Ha.
Qed.

(** ** The curve of a trade *)
Lemma y_loop_spec w d ix iy k xs s c s' c' :
  y_loop w d k ix iy xs s c = Some (s', c') ->
  s' = foldl N.add s (others_from k ix iy xs) /\
  c' = foldl (fun c z => c * d / z) c (others_from k ix iy xs) /\
  Forall (fun z => 0 < z) (others_from k ix iy xs).
Proof.
  revert k s c; induction xs as [|x xs IH]; intros k s c H; cbn [y_loop others_from] in H |- *.
  - inv. subst. done.
  - destruct (k =? ix)%nat, (k =? iy)%nat; cbn [negb andb orb] in H |- *; try (apply IH in H; exact H).
    inv. subst. match goal with H : y_loop _ _ _ _ _ _ _ _ = _ |- _ => apply IH in H as (-> & -> & HF) end.
    cbn [foldl]. split_and!; auto.
Qed.

Lemma y_coeffs_spec cv x xs ix iy b c d amp :
  compute_amp_factor cv = Some amp ->
  y_coeffs cv x xs ix iy = Some (b, c, d) ->
  compute_d cv xs = Some d /\
  b = curve_b amp (N.of_nat (length xs)) d x (others ix iy xs) /\
  c = curve_c amp (N.of_nat (length xs)) d x (others ix iy xs).
Proof.
  intros Hamp H. unfold y_coeffs in H. rewrite Hamp in H. cbn [mbind option_bind] in H.
  apply bind_Some in H as (nn & Hnn & H). apply bind_Some in H as (ann & Hann & H).
  apply bind_Some in H as (d' & Hd & H). apply bind_Some in H as (dd & Hdd & H).
  apply bind_Some in H as (c0 & Hc0 & H). apply bind_Some in H as ([s c1] & Hl & H).
  apply bind_Some in H as (c2 & Hc2 & H). apply bind_Some in H as (den & Hden & H).
  apply bind_Some in H as (c3 & Hc3 & H). apply bind_Some in H as (q & Hq & H).
  apply bind_Some in H as (b' & Hb & H). injection H as <- <- <-.
  apply cpow_Some in Hnn as [-> _]. apply cmul_Some in Hann as [-> _]. apply cmul_Some in Hdd as [-> _].
  apply cdiv_Some in Hc0 as [-> _]. apply y_loop_spec in Hl as (-> & -> & _).
  apply cmul_Some in Hc2 as [-> _]. apply cmul_Some in Hden as [-> _]. apply cdiv_Some in Hc3 as [-> _].
  apply cdiv_Some in Hq as [-> _]. apply cadd_Some in Hb as [-> _]. auto.
Qed.

(** Above the curve stays above it for a larger reserve. *)
Lemma above_mono A n D x zs y y' :
  0 < y -> y <= y' -> on_or_above_curve A n D x zs y -> on_or_above_curve A n D x zs y'.
Proof.
  unfold on_or_above_curve. generalize (curve_b A n D x zs) as b, (curve_c A n D x zs) as c.
  intros b c Hy Hyy H.
  assert (Hf : (0 <= Z.of_N y + (Z.of_N b - Z.of_N D))%Z) by nia.
  assert ((Z.of_N y * (Z.of_N y + (Z.of_N b - Z.of_N D)) <= Z.of_N y' * (Z.of_N y' + (Z.of_N b - Z.of_N D)))%Z).
  { apply Z.mul_le_mono_nonneg; lia. }
  lia.
Qed.

Lemma compute_y_above cv x xs ix iy y amp d :
  compute_amp_factor cv = Some amp -> compute_d cv xs = Some d ->
  compute_y cv x xs ix iy = Some y ->
  on_or_above_curve amp (N.of_nat (length xs)) d x (others ix iy xs) (y + 1).
Proof.
  intros Hamp Hd H. unfold compute_y in H. apply bind_Some in H as ([[b c] d'] & Hc & H).
  apply y_newton_above in H; [|lia]. apply (y_coeffs_spec _ _ _ _ _ _ _ _ _ Hamp) in Hc as (Hd' & -> & ->).
  rewrite Hd in Hd'. injection Hd' as <-. unfold on_or_above_curve. rewrite N2Z.inj_add. lia.
Qed.

Lemma compute_y_d cv x xs ix iy y : compute_y cv x xs ix iy = Some y -> is_Some (compute_d cv xs) /\ is_Some (compute_amp_factor cv).
Proof.
  unfold compute_y, y_coeffs. intros H. apply bind_Some in H as (bcd & H & _).
  apply bind_Some in H as (amp & Hamp & H). apply bind_Some in H as (nn & Hnn & H). apply bind_Some in H as (ann & Hann & H).
  apply bind_Some in H as (d' & Hd & H). eauto.
Qed.
