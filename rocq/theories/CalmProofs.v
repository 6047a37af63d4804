(** * The invariant per share of a stable pool over a history *)
From Verif Require Import Base BaseLemmas SimplePool SpecSimple SimplePoolProofs SimpleFacts StableMath
  StableMathProofs StablePool SpecStable StablePoolProofs StablePoolInv StableFacts SpecExact StableExact StablePrecise SpecCalm.

Lemma amp_pos now p t : st_reachable now p -> now <= t -> t < 2 ^ 64 -> 0 < st_get_amp p t.
Proof.
  intros Hr Hle HW. pose proof (st_reachable_amp _ _ Hr) as Hamp. rewrite <- W64_pow in HW.
  pose proof (st_amp_value now p t [] Hamp Hle HW) as HA. pose proof (amp_between _ _ HA) as Hb. cbn [st_curve cv_init cv_target] in Hb.
  destruct Hamp as (Hi & Ht & _). unfold MIN_AMP in *. lia.
Qed.
Lemma unit_rates p e rates : st_kind p = KStable -> st_get_rates p e = Some rates -> rates = map (fun _ => PRECISION) (st_tokens p).
Proof. intros Hk. unfold st_get_rates. rewrite Hk. now intros [= <-]. Qed.

(** ** Between the trade and the deposit of the exchange's part of the fee *)
Lemma part_left trade bps : 0 < trade -> bps < FEE_DIVISOR -> trade * bps / FEE_DIVISOR < trade.
Proof. intros. apply N.div_lt_upper_bound; unfold FEE_DIVISOR in *; nia. Qed.

Lemma swap_mid now p e ti a to mn f v p' out B D :
  let A := st_get_amp p (pe_now e) in
  let n := N.of_nat (length (st_tokens p)) in
  st_reachable now p -> now <= pe_now e -> pe_now e < 2 ^ 64 -> st_kind p = KStable ->
  st_swap p e ti a to mn f v = Some (p', out) ->
  st_D p (pe_now e) (map (fun _ => PRECISION) (st_tokens p)) (st_c p) = Some D ->
  FEE_DIVISOR <= (st_kept p to - st_kept p' to) * st_fee p -> admin_fee_bps f < FEE_DIVISOR ->
  (forall t, t ∈ st_tokens p -> t <> ti -> D + B * (st_kept p t * st_fee p / FEE_DIVISOR) <= B * st_kept p' t) ->
  B * geometric B (length (st_tokens p) - 2) <= A * n ^ n * n ^ n ->
  exists mid, at_most_D A mid D /\ Forall2 N.le mid (st_c p') /\
    (st_supply p' = st_supply p \/ exists d0 d1, st_D p (pe_now e) (map (fun _ => PRECISION) (st_tokens p)) mid = Some d0 /\
      st_D p (pe_now e) (map (fun _ => PRECISION) (st_tokens p)) (st_c p') = Some d1 /\ st_supply p' * d0 <= st_supply p * d1).
Proof.
  intros A n Hreach Hle HW Hk H HD Hfee Hbps Hbal HB. pose proof (st_reachable_wf _ _ Hreach) as Hwf.
  pose proof (st_reachable_amp _ _ Hreach) as Hamp. pose proof (amp_pos _ _ _ Hreach Hle HW) as HA0. fold A in HA0. rewrite <- W64_pow in HW.
  apply st_swap_inv in H as (ix & iy & rates & r & x & y & di & do_ & cin & m & s2 & adm & Hne & Hixy & Hti & Hto & _ & Hrates & Hdi & Hdo
    & Hx & Hy & Hcin & Hsw & _ & _ & _ & Hadm & _ & _ & Hp' & _ & _ & _ & _ & Hlp).
  apply (unit_rates _ _ _ Hk) in Hrates. subst rates.
  pose proof Hwf as (Hnd & Hld & Hlc & HcW & _).
  apply swap_to_inv in Hsw as (ri & ro & x' & y' & rated & xr & yr & yn & trade & admin & Hri & Hro & Hx' & Hy' & Hrated
    & Hmx & Hmy & Hxr & Hyr & Hri0 & Hro0 & Hcy & Hyn & HxW & Htrade & Hadmin & Htr & Had & Hns & Hnd' & Hsr & Had' & _).
  cbn [st_curve cv_rates] in *.
  rewrite rate_balances_unit in Hrated by (try done; lia). injection Hrated as <-.
  apply list_lookup_fmap_Some in Hri as (? & _ & ->). apply list_lookup_fmap_Some in Hro as (? & _ & ->).
  rewrite unit_back in Hns, Hnd', Hsr, Had'.
  rewrite N.div_mul in Hns, HxW, Hcy by (pose proof PRECISION_pos; lia).
  pose proof (st_amp_value now p (pe_now e) (map (fun _ => PRECISION) (st_tokens p)) Hamp Hle HW) as HA.
  fold A in HA.
  apply (compute_y_exact _ _ _ _ _ _ _ HA) in Hcy as (D' & HD' & Hxpos & HF & Hcurve).
  unfold st_D, compute_d_with_rates in HD. cbn [st_curve cv_rates] in HD. rewrite rate_balances_unit in HD by (try done; lia).
  cbn [mbind option_bind] in HD. rewrite HD in HD'. injection HD' as <-.
  assert (Htok : st_tokens p' = st_tokens p) by now subst.
  assert (HcC : st_c p' = <[iy := sr_new_destination r + adm]> (<[ix := sr_new_source r]> (st_c p))) by now subst.
  assert (Hsup : st_supply p' = st_supply p + s2) by now subst. clear Hp'.
  pose proof (lookup_lt_Some _ _ _ Hx) as Lx. pose proof (lookup_lt_Some _ _ _ Hy) as Ly.
  rewrite Hx in Hx'. injection Hx' as <-. rewrite Hy in Hy'. injection Hy' as <-.
  rewrite Hx in Hxr. injection Hxr as <-. rewrite Hy in Hyr. injection Hyr as <-.
  set (Y := sr_new_destination r) in *. set (mid := <[iy := Y]> (<[ix := sr_new_source r]> (st_c p))).
  assert (Hkept : st_kept p to = y) by (eapply st_kept_idx; eauto).
  assert (Hkept' : st_kept p' to = Y + adm).
  { unfold st_kept. rewrite Htok, HcC. apply (beside_idx _ iy to _ _ Hnd Hto). rewrite list_lookup_insert; [done|]. now rewrite insert_length. }
  rewrite Hkept, Hkept' in Hfee.
  assert (HYval : Y + adm = yn + 1 + trade /\ 0 < trade).
  { apply (charged_left Y adm y yn trade admin (st_fee p)); try done. now rewrite Hadm. }
  destruct HYval as [HYval Htr0].
  assert (Hal : adm < trade).
  { rewrite Hadm, Had', Hadmin. apply part_left; [done|]. exact Hbps. }
  assert (Hat : adm <= y * st_fee p / FEE_DIVISOR).
  { etransitivity; [apply N.lt_le_incl, Hal|]. rewrite Htrade. apply N.div_le_mono; [unfold FEE_DIVISOR; lia|]. apply N.mul_le_mono_r. clear. lia. }
  assert (Hlen : others_from 0 ix iy (st_c p) = others ix iy (st_c p)) by reflexivity.
  pose proof (others_perm 0 ix iy (st_c p) x y Hixy Hx Hy) as Hperm. cbn [Nat.add] in Hperm. rewrite Hlen in Hperm.
  pose proof (Permutation_length Hperm) as Hl2. cbn [length] in Hl2.
  assert (Hperm' : mid ≡ₚ sr_new_source r :: Y :: others ix iy (st_c p)).
  { pose proof (others_perm 0 ix iy mid (sr_new_source r) Y Hixy) as Hpm. cbn [Nat.add] in Hpm.
    rewrite Hpm at 1.
    - f_equiv. f_equiv. unfold mid.
      pose proof (others_insert 0 ix iy iy (<[ix:=sr_new_source r]> (st_c p)) Y) as E1. rewrite Nat.sub_0_r in E1.
      rewrite E1 by (auto; lia).
      pose proof (others_insert 0 ix iy ix (st_c p) (sr_new_source r)) as E2. rewrite Nat.sub_0_r in E2.
      rewrite E2 by (auto; lia). done.
    - unfold mid. rewrite list_lookup_insert_ne, list_lookup_insert by auto. done.
    - unfold mid. rewrite list_lookup_insert; [done|]. now rewrite insert_length. }
  assert (En : N.of_nat (length (st_c p)) = n) by (unfold n; now rewrite Hlc).
  assert (En2 : N.of_nat (2 + length (others ix iy (st_c p))) = n) by (rewrite <- En; f_equal; clear - Hl2; lia).
  exists mid. split_and!.
  - eapply (curve_exact A B D (sr_new_source r) (others ix iy (st_c p)) (yn + 1) Y); try done.
    + rewrite Hns. exact Hxpos.
    + apply Forall_forall. intros z Hz. split; [rewrite Forall_forall in HF; now apply HF|].
      apply others_elem in Hz as (l & Hl & Hli & Hlj). cbn [Nat.add] in Hli, Hlj.
      assert (Hlt : (l < length (st_tokens p))%nat) by (rewrite <- Hlc; eapply lookup_lt_Some; eauto).
      apply lookup_lt_is_Some in Hlt as [t Ht].
      assert (Hz : st_kept p' t = z).
      { unfold st_kept. rewrite Htok, HcC. apply (beside_idx _ l t _ _ Hnd Ht).
        rewrite !list_lookup_insert_ne by congruence. exact Hl. }
      assert (Hnt : t <> ti) by (intros ->; apply Hli; eapply NoDup_lookup; eauto).
      pose proof (Hbal t (elem_of_list_lookup_2 _ _ _ Ht) Hnt) as K. rewrite Hz in K. set (u := st_kept p t * st_fee p / FEE_DIVISOR) in K. clearbody u. clear - K. lia.
    + assert (K : D + B * (y * st_fee p / FEE_DIVISOR) <= B * (Y + adm)).
      { rewrite <- Hkept, <- Hkept'. apply Hbal; [|congruence]. eapply elem_of_list_lookup_2; eauto. }
      pose proof (N.mul_le_mono_l _ _ B Hat) as K2. clear - K K2. lia.
    + clear - HYval Hal. lia.
    + rewrite En2. replace (length (others ix iy (st_c p))) with (length (st_tokens p) - 2)%nat by (clear - Hl2 Hlc; lia). exact HB.
    + rewrite En2, <- En, Hns. exact Hcurve.
  - rewrite HcC. unfold mid. apply Forall2_insert; [|clear; lia]. apply Forall2_same_length_lookup_2; [done|]. intros i u w Hu Hw. rewrite Hu in Hw. injection Hw as <-. done.
  - rewrite Hsup. destruct Hlp as [->|(dep & fee & _ & Hdep & Hlp)]; [left; lia|]. right.
    apply deposit_inv in Hlp as (d0 & d1 & new & H0 & Hnew & H1 & Hp & Hlt & Hsum).
    assert (Enew : new = st_c p').
    { rewrite HcC. apply vadd_Forall2 in Hnew as (Hl & -> & _). subst dep. apply list_eq. intros i.
      rewrite lookup_zip_with. destruct (decide (i = iy)) as [->|Hi].
      - rewrite !list_lookup_insert; rewrite ?repeat_length, ?insert_length; try done.
      - rewrite !(list_lookup_insert_ne _ iy i) by auto.
        destruct (<[ix:=sr_new_source r]> (st_c p) !! i) as [z|] eqn:Hz; [|done].
        cbn [mbind option_bind]. pose proof (lookup_lt_Some _ _ _ Hz) as Lz. rewrite insert_length in Lz.
        assert (Hrep : forall n j, (j < n)%nat -> repeat 0 n !! j = Some 0).
        { clear. induction n as [|n IHn]; intros [|j] Hj; try lia; cbn; [done|]. apply IHn. lia. }
        rewrite Hrep by done. cbn. f_equal. clear. lia. }
    subst new. exists d0, d1. split_and!; [exact H0|exact H1|]. apply part_bound; [done| |done]. rewrite <- Hsum. clear. lia.
Qed.

(** ** One operation: an integer that is at most the invariant before gives one for after *)
Lemma after_mint A xs d d' S S' d0 d1 :
  0 < A -> xs <> [] -> at_most_D A xs (d1 - 1) -> d <= d0 -> S' * d0 <= S * d1 -> 0 < S -> (d' + 1) * S <= d * S' -> at_most_D A xs d'.
Proof.
  intros HA Hne H1 Hd Hs HS Hle. apply (at_most_D_down A xs d' (d1 - 1)); [done|done| |done].
  assert (S * (d' + 1) <= S * d1).
  { etransitivity; [|exact Hs]. pose proof (N.mul_le_mono_r _ _ S' Hd). lia. }
  apply N.mul_le_mono_pos_l in H; lia.
Qed.

Lemma round_down x S k : 0 < S -> exists d', d' * S + k * S <= x + k * S /\ (k = 0 -> d' * S <= x) /\ x <= d' * S + (k + 1) * S /\ (d' = 0 \/ (d' + k) * S <= x).
Proof.
  intros HS. exists (x / S - k). pose proof (div_mul_le x S HS) as H1. pose proof (lt_div_succ x S HS) as H2. set (q := x / S) in *. clearbody q.
  destruct (N.le_ge_cases q k) as [H|H].
  - replace (q - k) with 0 by lia. split_and!; try lia; nia.
  - assert (E : q = q - k + k) by lia. set (z := q - k) in *. clearbody z. subst q. split_and!; nia.
Qed.

Lemma at_most_zero A xs : at_most_D A xs 0.
Proof. unfold at_most_D. cbv zeta. rewrite N.add_1_r, N.pow_succ_r'. lia. Qed.

(** [d] per [S] shares is worth [d0] per [S0], less [k / M] *)
Definition worth (M d0 S0 k d S : N) : Prop := d0 * S * M <= d * S0 * M + k * S0 * S.
Lemma worth_step M d0 S0 k d S d' S' c :
  0 < S -> M <= S' -> worth M d0 S0 k d S -> d * S' <= d' * S + c * S -> worth M d0 S0 (k + c) d' S'.
Proof.
  unfold worth. intros HS HM H Hd.
  assert (K1 : d0 * S * M * S' <= (d * S0 * M + k * S0 * S) * S') by (now apply N.mul_le_mono_r).
  assert (K2 : d * S' * (S0 * M) <= (d' * S + c * S) * (S0 * M)) by (now apply N.mul_le_mono_r).
  assert (K3 : c * S * S0 * M <= c * S * S0 * S') by (now apply N.mul_le_mono_l).
  apply (N.mul_le_mono_pos_l _ _ S HS). lia.
Qed.

Lemma calm_one A B E Q M now p e o p' d d0 S0 k :
  let n := N.of_nat (length (st_tokens p)) in
  st_reachable now p -> st_kind p = KStable -> st_tokens p <> [] -> 0 < M -> M <= st_supply p ->
  B * geometric B (length (st_tokens p) - 2) <= A * n ^ n * n ^ n ->
  now <= pe_now e -> pe_now e < 2 ^ 64 -> st_get_amp p (pe_now e) = A ->
  st_exec p e o = Some p' -> M <= st_supply p' -> calm_op A B E Q p e o p' ->
  at_most_D A (st_c p) d -> worth M d0 S0 k d (st_supply p) ->
  exists d', at_most_D A (st_c p') d' /\ worth M d0 S0 (k + rounding Q o) d' (st_supply p').
Proof.
  intros n Hr Hk Hne HM HMs HB Hle HW HA Ho HMs' Hc Hd Hw.
  pose proof (amp_pos _ _ _ Hr Hle HW) as HA0. rewrite HA in HA0.
  pose proof (st_reachable_wf _ _ Hr) as Hwf. pose proof Hwf as (_ & _ & Hlc & HcW & _).
  pose proof (st_reach_step _ _ _ _ _ Hr Hle HW Ho) as Hr'. pose proof (st_reachable_wf _ _ Hr') as (_ & _ & Hlc' & HcW' & _).
  pose proof (st_exec_frame _ _ _ _ Ho) as (_ & Et & _ & Hfr).
  assert (HS : 0 < st_supply p) by exact (N.lt_le_trans _ _ _ HM HMs).
  assert (Hcne : st_c p <> []) by (intros E0; rewrite E0 in Hlc; destruct (st_tokens p); done).
  assert (Hcne' : st_c p' <> []) by (intros E0; rewrite E0, Et in Hlc'; destruct (st_tokens p); done).
  pose proof (st_reachable_amp _ _ Hr) as Hamp. pose proof HW as HW2. rewrite <- W64_pow in HW2.
  pose proof (st_amp_value now p (pe_now e) (map (fun _ => PRECISION) (st_tokens p)) Hamp Hle HW2) as Hcomp. rewrite HA in Hcomp.
  assert (Low : forall cs D x, length cs = length (st_tokens p) -> cs <> [] -> Forall (fun c => c < W128) cs ->
    st_D p (pe_now e) (map (fun _ => PRECISION) (st_tokens p)) cs = Some D -> at_most_D A cs x -> x <= D).
  { intros cs D x Hl Hn HF HD Hx. unfold st_D, compute_d_with_rates in HD. cbn [st_curve cv_rates] in HD. rewrite rate_balances_unit in HD by (try done; lia).
    cbn [mbind option_bind] in HD. eapply compute_d_lower; eauto. }
  assert (High : forall D, st_D p (pe_now e) (map (fun _ => PRECISION) (st_tokens p)) (st_c p') = Some D -> even_balances A E (st_c p') -> at_most_D A (st_c p') (D - 1)).
  { intros D HD He. unfold st_D, compute_d_with_rates in HD. cbn [st_curve cv_rates] in HD. rewrite rate_balances_unit in HD by (try done; rewrite Hlc', Et; lia).
    cbn [mbind option_bind] in HD. eapply compute_d_even; eauto. }
  destruct o; cbn [st_exec calm_op rounding] in *.
  - (* liquidity is added *)
    apply fmap_Some in Ho as ([q sh] & Ha & ->). cbn [fst] in *. destruct Hc as [Hf He].
    apply st_add_D in Ha as (rates & e0 & e1 & Hrt & H0 & H1 & _ & _ & _ & _ & Hs); [|done|done]. apply (unit_rates _ _ _ Hk) in Hrt. subst rates.
    pose proof (Low _ _ _ Hlc Hcne HcW H0 Hd) as L. destruct (round_down (d * st_supply q) (st_supply p) 1 HS) as (d' & _ & _ & R1 & R2).
    exists d'. split; [|eapply worth_step; [exact HS|done|exact Hw|]; clear - R1; lia].
    destruct R2 as [->|R2]; [apply at_most_zero|]. exact (after_mint A _ d d' _ _ e0 e1 HA0 Hcne' (High _ H1 He) L Hs HS R2).
  - (* shares are removed *)
    apply fmap_Some in Ho as ([q out] & Ha & ->). cbn [fst] in *.
    destruct (round_down (d * st_supply q) (st_supply p) 0 HS) as (d' & _ & R0 & R1 & _). exists d'. split; [|eapply worth_step; [exact HS|done|exact Hw|]; clear - R1; lia].
    exact (st_remove_exact _ _ _ _ _ _ _ A d d' Ha Hwf Hcne HA0 HS Hd (R0 eq_refl)).
  - (* tokens are withdrawn *)
    apply fmap_Some in Ho as ([q burn] & Ha & ->). cbn [fst] in *. destruct Hc as (Hf & He & HQ).
    apply st_remove_tokens_D in Ha as (rates & e0 & e1 & Hrt & H0 & H1 & Hlt & _ & Hb & Hsle); [|done]. apply (unit_rates _ _ _ Hk) in Hrt. subst rates.
    pose proof (Low _ _ _ Hlc Hcne HcW H0 Hd) as L. specialize (HQ _ H0).
    assert (Hs : (st_supply q - 1) * e0 <= st_supply p * e1).
    { assert (He0 : 0 < e0) by lia. pose proof (lt_div_succ (st_supply p * (e0 - e1)) e0 He0) as Hq. set (z := st_supply p * (e0 - e1) / e0) in *. clearbody z.
      assert (Hz : st_supply q + z <= st_supply p) by lia. assert (Ee : e0 = e1 + (e0 - e1)) by lia. set (y := e0 - e1) in *. clearbody y.
      assert (Hone : st_supply q - 1 + (z + 1) <= st_supply p) by lia. set (u := st_supply q - 1) in *. clearbody u.
      pose proof (N.mul_le_mono_r _ _ e0 Hone) as K. clear - K Hq Ee. rewrite Ee in K at 2. lia. }
    destruct (round_down (d * (st_supply q - 1)) (st_supply p) 1 HS) as (d' & _ & _ & R1 & R2).
    exists d'. split.
    + destruct R2 as [->|R2]; [apply at_most_zero|]. exact (after_mint A _ d d' _ _ e0 e1 HA0 Hcne' (High _ H1 He) L Hs HS R2).
    + eapply worth_step; [exact HS|done|exact Hw|]. assert (X : st_supply q = st_supply q - 1 + 1) by lia. set (u := st_supply q - 1) in *. clearbody u. rewrite X.
      assert (d <= Q * st_supply p) by lia. lia.
  - (* a trade *)
    apply fmap_Some in Ho as ([q out] & Ha & ->). cbn [fst] in *. destruct Hc as ((D & HD & Hbal) & Hfee & Hbps & He).
    rewrite <- HA in HB. destruct (swap_mid _ _ _ _ _ _ _ _ _ _ _ _ _ Hr Hle HW Hk Ha HD Hfee Hbps Hbal HB) as (mid & Hmid & Hmle & Hsup). rewrite HA in Hmid.
    pose proof (Low _ _ _ Hlc Hcne HcW HD Hd) as L.
    assert (Hmne : mid <> []) by (intros ->; apply Forall2_length in Hmle; destruct (st_c q); done).
    pose proof (at_most_D_down _ _ _ _ HA0 Hmne L Hmid) as Hmd.
    destruct Hsup as [Hs|(e0 & e1 & H0 & H1 & Hs)].
    + exists d. split; [eapply at_most_D_mono; eauto|]. eapply worth_step; [exact HS|done|exact Hw|]. rewrite Hs. clear. lia.
    + assert (Lm : d <= e0).
      { eapply (Low mid); [| |  |exact H0|exact Hmd]; [|done|].
        - rewrite (Forall2_length _ _ _ Hmle), Hlc', Et. done.
        - apply Forall_lookup. intros i c Hi. destruct (Forall2_lookup_l _ _ _ _ _ Hmle Hi) as (c' & Hi' & Hcc). rewrite Forall_lookup in HcW'. specialize (HcW' _ _ Hi'). lia. }
      destruct (round_down (d * st_supply q) (st_supply p) 1 HS) as (d' & _ & _ & R1 & R2).
      exists d'. split; [|eapply worth_step; [exact HS|done|exact Hw|]; clear - R1; lia].
      destruct R2 as [->|R2]; [apply at_most_zero|]. exact (after_mint A _ d d' _ _ e0 e1 HA0 Hcne' (High _ H1 He) Lm Hs HS R2).
  - unfold st_share_transfer in Ho. inv. subst p'. st_unfold. exists d. split; [done|]. eapply worth_step; [exact HS|done|exact Hw|]. clear. lia.
  - unfold st_share_register in Ho. inv. subst p'. st_unfold. exists d. split; [done|]. eapply worth_step; [exact HS|done|exact Hw|]. clear. lia.
  - unfold st_share_unregister in Ho. inv. subst p'. st_unfold. exists d. split; [done|]. eapply worth_step; [exact HS|done|exact Hw|]. clear. lia.
  - destruct (fee <? FEE_DIVISOR); [|done]. injection Ho as <-. unfold st_modify_total_fee in *. st_unfold. exists d. split; [done|]. eapply worth_step; [exact HS|done|exact Hw|]. clear. lia.
  - destruct Hfr as (-> & _ & ->). exists d. split; [done|]. eapply worth_step; [exact HS|done|exact Hw|]. clear. lia.
  - destruct Hfr as (-> & _ & ->). exists d. split; [done|]. eapply worth_step; [exact HS|done|exact Hw|]. clear. lia.
Qed.

Lemma calm_worth A B E Q M now p now' p' k d :
  let n := N.of_nat (length (st_tokens p)) in
  st_reachable now p -> st_kind p = KStable -> st_tokens p <> [] -> 0 < M ->
  B * geometric B (length (st_tokens p) - 2) <= A * n ^ n * n ^ n ->
  calm A B E Q M now p now' p' k -> at_most_D A (st_c p) d ->
  st_reachable now' p' /\ exists d', at_most_D A (st_c p') d' /\ worth M d (st_supply p) k d' (st_supply p').
Proof.
  intros n Hr Hk Hne HM HB H Hd.
  cut (st_reachable now' p' /\ st_kind p' = KStable /\ st_tokens p' = st_tokens p /\ M <= st_supply p' /\
    exists d', at_most_D A (st_c p') d' /\ worth M d (st_supply p) k d' (st_supply p')); [tauto|].
  induction H as [Hs|now1 p1 k e o p2 H IH Hle HW HA Ho Hs Hc].
  - split_and!; try done. exists d. split; [done|]. unfold worth. lia.
  - destruct IH as (Hr1 & Hk1 & Et1 & Hs1 & d1 & Hd1 & Hw1).
    pose proof (st_exec_frame _ _ _ _ Ho) as (Ek & Et & _).
    split_and!; [eapply st_reach_step; eauto|congruence|congruence|done|].
    refine (calm_one A B E Q M now1 p1 e o p2 d1 d (st_supply p) k Hr1 Hk1 _ HM Hs1 _ Hle HW HA Ho Hs Hc Hd1 Hw1); rewrite Et1; [exact Hne|exact HB].
Qed.
