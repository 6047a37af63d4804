(** * The invariant computed by the contract and the exact one *)
From Verif Require Import Base BaseLemmas SimplePool SpecSimple SimplePoolProofs SimpleFacts StableMath
  StableMathProofs StablePool SpecStable StablePoolProofs StablePoolInv StableFacts SpecExact.

(** ** The tangent of a power *)
Lemma swap_powers d D m : d * D ^ m + d ^ m * D <= d ^ (m + 1) + D ^ (m + 1).
Proof.
  rewrite !N.add_1_r, !N.pow_succ_r'.
  destruct (N.le_ge_cases d D) as [H|H].
  - pose proof (N.pow_le_mono_l d D m H). nia.
  - pose proof (N.pow_le_mono_l D d m H). nia.
Qed.

Lemma tangent d D (m : nat) :
  (N.of_nat m + 1) * d * D ^ N.of_nat m <= d ^ (N.of_nat m + 1) + N.of_nat m * D ^ (N.of_nat m + 1).
Proof.
  induction m as [|m IH].
  - change (N.of_nat 0) with 0. rewrite N.pow_0_r, N.add_0_l, N.pow_1_r. lia.
  - rewrite Nat2N.inj_succ. set (k := N.of_nat m) in *.
    pose proof (swap_powers d D (N.succ k)) as Hs. rewrite !N.add_1_r, !N.pow_succ_r' in *.
    set (a := d ^ k) in *. set (b := D ^ k) in *. clearbody a b k.
    pose proof (N.mul_le_mono_l _ _ D IH) as H. clear IH. lia.
Qed.

(** ** The product loop rounds down *)
Lemma d_prod_le w n d p xs q :
  d_prod_loop w n d p xs = Some q ->
  q * (n ^ N.of_nat (length xs) * product xs) <= p * d ^ N.of_nat (length xs) /\
  0 < n ^ N.of_nat (length xs) * product xs.
Proof.
  revert p; induction xs as [|c xs IH]; intros p H; cbn [d_prod_loop] in H.
  - inv. subst. cbn [length product foldr]. change (N.of_nat 0) with 0. rewrite !N.pow_0_r. lia.
  - inv. subst. match goal with H : d_prod_loop _ _ _ _ _ = _ |- _ => apply IH in H as [H Hp] end.
    cbn [length product foldr]. rewrite Nat2N.inj_succ, !N.pow_succ_r'.
    fold (product xs). set (a := n ^ N.of_nat (length xs)) in *. set (P := product xs) in *.
    set (b := d ^ N.of_nat (length xs)) in *. clearbody a P b.
    match goal with H : 0 < c * n |- _ => pose proof (div_mul_le (p * d) _ H) as Hd end.
    set (r := p * d / (c * n)) in *. clearbody r.
    split; [|nia].
    pose proof (N.mul_le_mono_r _ _ (c * n) H) as K1. pose proof (N.mul_le_mono_r _ _ b Hd) as K2. lia.
Qed.

(** ** One step from anywhere does not fall below an integer that is at most the exact invariant *)
Lemma d_step_lower w amp xs D D' d :
  let n := N.of_nat (length xs) in
  d_step w n amp (total xs) xs D = Some D' -> at_most_D amp xs d -> d <= D'.
Proof.
  intros n H Hd. unfold d_step in H.
  apply bind_Some in H as (q & Hq & H). apply bind_Some in H as (nn & Hnn & H). apply bind_Some in H as (ann & Hann & H).
  apply bind_Some in H as (lev & Hlev & H). apply bind_Some in H as (a & Ha & H). apply bind_Some in H as (b & Hb & H).
  apply bind_Some in H as (num & Hnum & H). apply bind_Some in H as (ann1 & Hann1 & H). apply bind_Some in H as (e & He & H).
  apply bind_Some in H as (g & Hg & H). apply bind_Some in H as (den & Hden & H).
  apply d_prod_le in Hq as [Hq HP]. fold n in Hq, HP.
  apply cpow_Some in Hnn as [-> _]. apply cmul_Some in Hann as [-> _]. apply cmul_Some in Hlev as [-> _].
  apply cmul_Some in Ha as [-> _]. apply cadd_Some in Hb as [-> _]. apply cmul_Some in Hnum as [-> _].
  apply csub_Some in Hann1 as [-> Hone]. apply cmul_Some in He as [-> _]. apply cmul_Some in Hg as [-> _].
  apply cadd_Some in Hden as [-> _]. apply cdiv_Some in H as [-> Hpos].
  unfold at_most_D in Hd. cbv zeta in Hd. fold n in Hd.
  pose proof (tangent d D (length xs)) as Ht. fold n in Ht.
  set (P := n ^ n * product xs) in *. set (S := total xs) in *. set (Ann := amp * n ^ n) in *.
  rewrite N.add_1_r, N.pow_succ_r' in Hd. rewrite N.add_1_r, !N.pow_succ_r' in Ht.
  set (dn := d ^ n) in *. set (Dn := D ^ n) in *. clearbody P S Ann dn Dn n.
  apply N.div_le_lower_bound; [lia|].
  assert (X : N.succ n * d * (q * P) <= n * D * (q * P) + D * (d * dn)).
  { set (K := q * P) in *. clearbody K. clear - Hq Ht. destruct (N.le_ge_cases (N.succ n * d) (n * D)) as [Hc|Hc].
    - pose proof (N.mul_le_mono_r _ _ K Hc). lia.
    - assert (E : N.succ n * d = n * D + (N.succ n * d - n * D)) by lia.
      set (z := N.succ n * d - n * D) in *. clearbody z.
      pose proof (N.mul_le_mono_l _ _ z Hq) as K1. pose proof (N.mul_le_mono_l _ _ D Ht) as K2.
      rewrite E in *. lia. }
  apply (N.mul_le_mono_pos_l _ _ P HP).
  pose proof (N.mul_le_mono_l _ _ D Hd) as K1. clear Hd Ht Hq Hpos.
  assert (E : Ann = Ann - 1 + 1) by lia. set (a := Ann - 1) in *. clearbody a. subst Ann. lia.
Qed.

Lemma csum_total w s xs t : csum w s xs = Some t -> t = s + total xs.
Proof.
  revert s; induction xs as [|x xs IH]; intros s H; cbn [csum] in H; inv; subst.
  - cbn [total foldr]. lia.
  - match goal with H : csum _ _ _ = _ |- _ => apply IH in H as -> end. cbn [total foldr]. fold (total xs). lia.
Qed.

Lemma d_loop_lower fuel w amp xs D D' d :
  (0 < fuel)%nat -> d_loop fuel w (N.of_nat (length xs)) amp (total xs) xs D = Some D' -> at_most_D amp xs d -> d <= D'.
Proof.
  revert D; induction fuel as [|fuel IH]; intros D Hf H Hd; [lia|].
  cbn [d_loop] in H. apply bind_Some in H as (D1 & Hs & H).
  destruct (close D1 D); [apply mret_Some in H; subst; eapply d_step_lower; eauto|].
  destruct fuel; [cbn in H; apply mret_Some in H; subst; eapply d_step_lower; eauto|].
  eapply IH; [lia|exact H|exact Hd].
Qed.

Lemma at_most_D_zero A xs d : xs <> [] -> total xs = 0 -> at_most_D A xs d -> d = 0.
Proof.
  intros Hne Ht H. destruct xs as [|x xs]; [done|]. unfold at_most_D in H. cbv zeta in H. rewrite Ht in H.
  cbn [total foldr] in Ht. assert (Hx : x = 0) by lia. subst x. cbn [product foldr] in H.
  rewrite N.mul_0_l, !N.mul_0_r in H. rewrite N.add_1_r, N.pow_succ_r' in H.
  destruct (N.eq_0_gt_0_cases d) as [|Hd]; [done|].
  assert (0 < d ^ N.of_nat (length (0 :: xs))) by (apply N.neq_0_lt_0, N.pow_nonzero; lia). nia.
Qed.

Lemma compute_d_lower cv xs amp D d :
  xs <> [] -> compute_amp_factor cv = Some amp -> compute_d cv xs = Some D -> at_most_D amp xs d -> d <= D.
Proof.
  intros Hne Ha H Hd. unfold compute_d in H. apply bind_Some in H as (s & Hs & H).
  apply csum_total in Hs. rewrite N.add_0_l in Hs. subst s.
  destruct (N.eqb_spec (total xs) 0) as [E|_].
  - apply mret_Some in H. subst. apply at_most_D_zero in Hd; [lia|done|done].
  - rewrite Ha in H. cbn [mbind option_bind] in H. eapply d_loop_lower; [|exact H|exact Hd]. lia.
Qed.

(** ** A smaller integer is also at most the exact invariant *)
Lemma at_most_D_down A xs d d' : 0 < A -> xs <> [] -> d <= d' -> at_most_D A xs d' -> at_most_D A xs d.
Proof.
  unfold at_most_D. cbv zeta. intros HA Hne Hle H.
  set (n := N.of_nat (length xs)) in *. set (P := n ^ n * product xs) in *.
  assert (Hn : 0 < n) by (unfold n; destruct xs; [done|cbn [length]; lia]).
  assert (Hnn : 0 < n ^ n) by (apply N.neq_0_lt_0, N.pow_nonzero; lia).
  pose proof (N.pow_le_mono_l d d' (n + 1) Hle) as Hpow.
  set (a := d ^ (n + 1)) in *. set (b := d' ^ (n + 1)) in *. set (S := total xs) in *.
  assert (Hann : 0 < A * n ^ n) by nia. set (Ann := A * n ^ n) in *. clearbody a b S Ann P n.
  assert (E : Ann = Ann - 1 + 1) by lia. set (z := Ann - 1) in *. clearbody z. subst Ann.
  pose proof (N.mul_le_mono_l _ _ (z * P) Hle). lia.
Qed.

(** ** Balances apart from two of them *)
Lemma others_one k i j xs b :
  (i < k)%nat -> xs !! j = Some b ->
  xs ≡ₚ b :: others_from k i (k + j) xs /\ xs ≡ₚ b :: others_from k (k + j) i xs.
Proof.
  assert (None_left : forall k i j ys, (i < k)%nat -> (j < k)%nat -> others_from k i j ys = ys).
  { clear. intros k i j ys. revert k. induction ys as [|y ys IH]; intros k Hi Hj; cbn [others_from]; [done|].
    destruct (Nat.eqb_spec k i), (Nat.eqb_spec k j); try lia. cbn [orb]. f_equal. apply IH; lia. }
  revert k j; induction xs as [|x xs IH]; intros k j Hi Hj; [done|].
  destruct j as [|j]; cbn in Hj; cbn [others_from].
  - injection Hj as ->. rewrite Nat.add_0_r. destruct (Nat.eqb_spec k i); [lia|].
    rewrite Nat.eqb_refl. cbn [orb]. rewrite !None_left by lia. done.
  - destruct (Nat.eqb_spec k i); [lia|]. destruct (Nat.eqb_spec k (k + S j)); [lia|]. cbn [orb].
    destruct (IH (S k) j) as [H1 H2]; [lia|done|]. replace (k + S j)%nat with (S k + j)%nat by lia.
    split; [rewrite H1 at 1|rewrite H2 at 1]; apply Permutation_swap.
Qed.

Lemma others_perm k i j xs a b :
  i <> j -> xs !! i = Some a -> xs !! j = Some b -> xs ≡ₚ a :: b :: others_from k (k + i) (k + j) xs.
Proof.
  revert k i j; induction xs as [|x xs IH]; intros k i j Hne Hi Hj; [done|].
  destruct i as [|i], j as [|j]; [done| | |]; cbn in Hi, Hj; cbn [others_from].
  - injection Hi as ->. rewrite Nat.add_0_r, Nat.eqb_refl. cbn [orb]. f_equiv.
    replace (k + S j)%nat with (S k + j)%nat by lia. apply others_one; [lia|done].
  - injection Hj as ->. rewrite Nat.add_0_r, Nat.eqb_refl. destruct (k =? k + S i)%nat; cbn [orb];
    (rewrite Permutation_swap; f_equiv; replace (k + S i)%nat with (S k + i)%nat by lia; apply others_one; [lia|done]).
  - destruct (Nat.eqb_spec k (k + S i)), (Nat.eqb_spec k (k + S j)); try lia. cbn [orb].
    replace (k + S i)%nat with (S k + i)%nat by lia. replace (k + S j)%nat with (S k + j)%nat by lia.
    rewrite (IH (S k) i j) at 1 by (try done; lia).
    rewrite Permutation_swap. rewrite (Permutation_swap x b). rewrite Permutation_swap. rewrite (Permutation_swap b a). done.
Qed.

Lemma others_insert k i j l xs y : (l = i \/ l = j) -> (k <= l)%nat -> others_from k i j (<[(l - k)%nat := y]> xs) = others_from k i j xs.
Proof.
  intros Hl. revert k; induction xs as [|x xs IH]; intros k Hk; [done|].
  destruct (l - k)%nat as [|m] eqn:E; cbn [others_from list_insert insert].
  - assert (l = k) by lia. destruct (Nat.eqb_spec k i), (Nat.eqb_spec k j); cbn [orb]; try done; lia.
  - replace m with (l - S k)%nat by lia. rewrite IH by lia. done.
Qed.

Lemma others_elem k i j xs z :
  z ∈ others_from k i j xs -> exists l, xs !! l = Some z /\ (k + l)%nat <> i /\ (k + l)%nat <> j.
Proof.
  revert k; induction xs as [|x xs IH]; intros k H; cbn [others_from] in H; [by apply elem_of_nil in H|].
  destruct (Nat.eqb_spec k i), (Nat.eqb_spec k j); cbn [orb] in H;
    try (apply IH in H as (l & Hl & H1 & H2); exists (S l); split; [exact Hl|split; lia]).
  apply elem_of_cons in H as [->|H].
  - exists 0%nat. split; [done|split; lia].
  - apply IH in H as (l & Hl & H1 & H2); exists (S l); split; [exact Hl|split; lia].
Qed.

Lemma total_perm xs ys : xs ≡ₚ ys -> total xs = total ys.
Proof. induction 1; cbn [total foldr]; fold total; unfold total in *; lia. Qed.
Lemma product_perm xs ys : xs ≡ₚ ys -> product xs = product ys.
Proof. induction 1; cbn [product foldr]; unfold product in *; nia. Qed.

Lemma foldl_total s zs : foldl N.add s zs = s + total zs.
Proof. revert s; induction zs as [|z zs IH]; intros s; cbn [foldl total foldr]; [lia|]. rewrite IH. fold (total zs). lia. Qed.

(** ** The rounding of the constant of the curve *)
Lemma chain_lower D B zs (k : nat) c0 P0 (j : nat) :
  Forall (fun z => 0 < z /\ D <= B * z) zs -> D ^ N.of_nat k <= P0 * (c0 + geometric B j) ->
  D ^ N.of_nat (length zs + k) <=
    P0 * product zs * (foldl (fun c z => c * D / z) c0 zs + geometric B (length zs + j)).
Proof.
  revert k c0 P0 j; induction zs as [|z zs IH]; intros k c0 P0 j HF H; cbn [foldl length product foldr].
  - rewrite N.mul_1_r. exact H.
  - inversion HF as [|? ? [Hz HB] HF']; subst. fold (product zs).
    replace (S (length zs) + k)%nat with (length zs + S k)%nat by lia.
    replace (S (length zs) + j)%nat with (length zs + S j)%nat by lia. rewrite N.mul_assoc.
    apply (IH (S k) _ (P0 * z) (S j) HF').
    rewrite Nat2N.inj_succ, N.pow_succ_r'. cbn [geometric].
    pose proof (N.mul_le_mono_l _ _ D H) as H1.
    pose proof (lt_div_succ (c0 * D) z Hz) as H2. set (r := c0 * D / z) in *. clearbody r.
    set (g := geometric B j) in *. clearbody g. clear IH HF HF' H.
    pose proof (N.mul_le_mono_r _ _ g HB) as H3.
    assert (H4 : c0 * D + D * g <= z * (r + (1 + B * g))) by lia.
    pose proof (N.mul_le_mono_l _ _ P0 H4). lia.
Qed.

(** ** The exact curve
    A balance [Y] of the outgoing token larger than one on or above the rounded curve is on or above
    the exact one, if no balance is a tiny part of [D]. *)
Lemma curve_gain b D c Y1 Y :
  (Z.of_N c < Z.of_N Y1 * Z.of_N Y1 + (Z.of_N b - Z.of_N D) * Z.of_N Y1)%Z -> Y1 < Y ->
  c + 1 + Y + D * Y <= Y * Y + b * Y.
Proof.
  intros H HY.
  assert (Hf : (0 < Z.of_N Y1 + (Z.of_N b - Z.of_N D))%Z) by nia.
  assert (HZ : (Z.of_N c + 1 + Z.of_N Y <= Z.of_N Y * (Z.of_N Y + (Z.of_N b - Z.of_N D)))%Z) by nia.
  clear H Hf HY. lia.
Qed.

Lemma curve_exact A B D x zs Y1 Y xs :
  let n := N.of_nat (2 + length zs) in
  0 < A -> 0 < x -> Forall (fun z => 0 < z /\ D <= B * z) zs -> D <= B * Y -> Y1 < Y ->
  B * geometric B (length zs) <= A * n ^ n * n ^ n ->
  (Z.of_N (curve_c A n D x zs) < Z.of_N Y1 * Z.of_N Y1 + (Z.of_N (curve_b A n D x zs) - Z.of_N D) * Z.of_N Y1)%Z ->
  xs ≡ₚ x :: Y :: zs -> at_most_D A xs D.
Proof.
  intros n HA Hx HF HBY HY HB Hc Hp. unfold at_most_D. cbv zeta.
  rewrite (total_perm _ _ Hp), (product_perm _ _ Hp), (Permutation_length Hp). cbn [length]. fold n.
  change (N.of_nat (S (S (length zs)))) with n.
  apply (curve_gain _ _ _ _ Y) in Hc; [|done]. unfold curve_b in Hc. rewrite foldl_total in Hc.
  assert (Hn : 0 < n) by (unfold n; lia).
  assert (Hnn : 0 < n ^ n) by (apply N.neq_0_lt_0, N.pow_nonzero; lia).
  assert (HAnn : 0 < A * n ^ n) by nia.
  pose proof (chain_lower D B zs 2 (D * D / x) x 0 HF) as Hch.
  assert (H0 : D ^ N.of_nat 2 <= x * (D * D / x + geometric B 0)).
  { change (N.of_nat 2) with 2. cbn [geometric]. rewrite N.pow_2_r. pose proof (lt_div_succ (D * D) x Hx). lia. }
  specialize (Hch H0). clear H0. replace (length zs + 2)%nat with (2 + length zs)%nat in Hch by lia. fold n in Hch.
  rewrite Nat.add_0_r in Hch. unfold curve_c in Hc.
  set (cl := foldl (fun c z => c * D / z) (D * D / x) zs) in *. clearbody cl.
  assert (HM : 0 < A * n ^ n * n ^ n) by nia.
  pose proof (lt_div_succ (cl * D) _ HM) as Hcl. set (c := cl * D / (A * n ^ n * n ^ n)) in *. clearbody c.
  pose proof (div_mul_le D _ HAnn) as Hq. set (q := D / (A * n ^ n)) in *. clearbody q.
  cbn [total product foldr]. fold (total zs) (product zs).
  set (s := total zs) in *. set (Q := product zs) in *. set (E := geometric B (length zs)) in *.
  clear Hp HF. rewrite N.add_1_r, N.pow_succ_r'.
  set (Dn := D ^ n) in *. set (nn := n ^ n) in *. clearbody s Q E Dn nn. set (Ann := A * nn) in *. clearbody Ann. clear HA n Hn HM.
  (* D^n * D <= W * M * (c + 1 + Y) *)
  pose proof (N.mul_le_mono_l _ _ E HBY) as K1. pose proof (N.mul_le_mono_r _ _ Y HB) as K2.
  assert (K3 : D * (cl + E) <= Ann * nn * (c + 1 + Y)) by lia.
  pose proof (N.mul_le_mono_l _ _ D Hch) as K4. pose proof (N.mul_le_mono_l _ _ (x * Q) K3) as K5.
  assert (K6 : D * Dn <= x * Q * (Ann * nn * (c + 1 + Y))) by lia.
  pose proof (N.mul_le_mono_l _ _ (x * Q * (Ann * nn)) Hc) as K7.
  pose proof (N.mul_le_mono_l _ _ (x * Q * nn * Y) Hq) as K8.
  clear - K6 K7 K8. lia.
Qed.

Lemma compute_y_exact cv x xs ix iy y amp :
  compute_amp_factor cv = Some amp -> compute_y cv x xs ix iy = Some y ->
  exists D, compute_d cv xs = Some D /\ 0 < x /\ Forall (fun z => 0 < z) (others ix iy xs) /\
    (Z.of_N (curve_c amp (N.of_nat (length xs)) D x (others ix iy xs)) <
      Z.of_N (y + 1) * Z.of_N (y + 1) +
      (Z.of_N (curve_b amp (N.of_nat (length xs)) D x (others ix iy xs)) - Z.of_N D) * Z.of_N (y + 1))%Z.
Proof.
  intros Hamp H. unfold compute_y in H. apply bind_Some in H as ([[b c] D] & Hc & H).
  apply y_newton_above in H; [|lia]. pose proof Hc as Hc'.
  apply (y_coeffs_spec _ _ _ _ _ _ _ _ _ Hamp) in Hc' as (Hd & -> & ->).
  exists D. split; [done|]. unfold y_coeffs in Hc. rewrite Hamp in Hc. cbn [mbind option_bind] in Hc.
  apply bind_Some in Hc as (nn & Hnn & Hc). apply bind_Some in Hc as (ann & Hann & Hc).
  apply bind_Some in Hc as (d' & Hd' & Hc). apply bind_Some in Hc as (dd & Hdd & Hc).
  apply bind_Some in Hc as (c0 & Hc0 & Hc). apply bind_Some in Hc as ([s c1] & Hl & Hc).
  apply cdiv_Some in Hc0 as [_ Hx]. apply y_loop_spec in Hl as (_ & _ & HF). clear Hc.
  split; [exact Hx|]. split; [exact HF|]. rewrite N2Z.inj_add. exact H.
Qed.

Lemma charged_left nd adm y yn trade admin fee :
  nd = y - (y - yn - 1 - trade) - admin -> adm = admin -> (y - yn - 1 - trade) + admin <= y -> yn <= y ->
  trade = (y - yn - 1) * fee / FEE_DIVISOR -> trade <= y - yn - 1 ->
  FEE_DIVISOR <= (y - (nd + adm)) * fee -> nd + adm = yn + 1 + trade /\ 0 < trade.
Proof.
  intros -> -> Had Hyn Htrade Htr Hfee.
  replace (y - (y - (y - yn - 1 - trade) - admin + admin)) with (y - yn - 1 - trade) in Hfee by lia.
  assert (Hg : 0 < y - yn - 1 - trade).
  { destruct (N.eq_0_gt_0_cases (y - yn - 1 - trade)) as [E|]; [|done]. rewrite E in Hfee. unfold FEE_DIVISOR in Hfee. lia. }
  assert (Ht : FEE_DIVISOR <= (y - yn - 1) * fee).
  { etransitivity; [exact Hfee|]. apply N.mul_le_mono_r. lia. }
  split; [clear - Hg Had Hyn Htr; lia|]. rewrite Htrade.
  apply N.div_str_pos. split; [unfold FEE_DIVISOR; lia|exact Ht].
Qed.

Lemma st_swap_exact now p e ti a to mn f v p' out B D :
  let A := st_get_amp p (pe_now e) in
  let n := N.of_nat (length (st_tokens p)) in
  st_reachable now p -> now <= pe_now e -> pe_now e < 2 ^ 64 -> st_kind p = KStable ->
  st_swap p e ti a to mn f v = Some (p', out) ->
  st_D p (pe_now e) (map (fun _ => PRECISION) (st_tokens p)) (st_c p) = Some D ->
  FEE_DIVISOR <= (st_kept p to - st_kept p' to) * st_fee p ->
  (forall t, t ∈ st_tokens p -> t <> ti -> D <= B * st_kept p' t) ->
  B * geometric B (length (st_tokens p) - 2) <= A * n ^ n * n ^ n ->
  at_most_D A (st_c p') D.
Proof.
  intros A n Hreach Hle HW Hk H HD Hfee Hbal HB. pose proof (st_reachable_wf _ _ Hreach) as Hwf.
  pose proof (st_reachable_amp _ _ Hreach) as Hamp. rewrite <- W64_pow in HW.
  apply st_swap_inv in H as (ix & iy & rates & r & x & y & di & do_ & cin & m & s2 & adm & Hne & Hixy & Hti & Hto & _ & Hrates & Hdi & Hdo
    & Hx & Hy & Hcin & Hsw & _ & _ & _ & Hadm & _ & _ & Hp' & _).
  unfold st_get_rates in Hrates. rewrite Hk in Hrates. injection Hrates as <-.
  pose proof Hwf as (Hnd & Hld & Hlc & HcW & _).
  apply swap_to_inv in Hsw as (ri & ro & x' & y' & rated & xr & yr & yn & trade & admin & Hri & Hro & Hx' & Hy' & Hrated
    & Hmx & Hmy & Hxr & Hyr & Hri0 & Hro0 & Hcy & Hyn & HxW & Htrade & Hadmin & Htr & Had & Hns & Hnd' & Hsr & Had' & _).
  cbn [st_curve cv_rates] in *.
  rewrite rate_balances_unit in Hrated by (try done; lia). injection Hrated as <-.
  apply list_lookup_fmap_Some in Hri as (? & _ & ->). apply list_lookup_fmap_Some in Hro as (? & _ & ->).
  rewrite unit_back in Hns, Hnd', Hsr, Had'.
  rewrite N.div_mul in Hns, HxW, Hcy by (pose proof PRECISION_pos; lia).
  pose proof (st_amp_value now p (pe_now e) (map (fun _ => PRECISION) (st_tokens p)) Hamp Hle HW) as HA.
  fold A in HA.
  assert (HA0 : 0 < A).
  { pose proof (amp_between _ _ HA) as Hb. cbn [st_curve cv_init cv_target] in Hb. destruct Hamp as (Hi & Ht & _). unfold MIN_AMP in *. lia. }
  apply (compute_y_exact _ _ _ _ _ _ _ HA) in Hcy as (D' & HD' & Hxpos & HF & Hcurve).
  unfold st_D, compute_d_with_rates in HD. cbn [st_curve cv_rates] in HD. rewrite rate_balances_unit in HD by (try done; lia).
  cbn [mbind option_bind] in HD. rewrite HD in HD'. injection HD' as <-.
  assert (Htok : st_tokens p' = st_tokens p) by now subst.
  assert (HcC : st_c p' = <[iy := sr_new_destination r + adm]> (<[ix := sr_new_source r]> (st_c p))) by now subst. clear Hp'.
  pose proof (lookup_lt_Some _ _ _ Hx) as Lx. pose proof (lookup_lt_Some _ _ _ Hy) as Ly.
  rewrite Hx in Hx'. injection Hx' as <-. rewrite Hy in Hy'. injection Hy' as <-.
  rewrite Hx in Hxr. injection Hxr as <-. rewrite Hy in Hyr. injection Hyr as <-.
  set (Y := sr_new_destination r + adm) in *.
  assert (Hkept : st_kept p to = y) by (eapply st_kept_idx; eauto).
  assert (Hkept' : st_kept p' to = Y).
  { unfold st_kept. rewrite Htok, HcC. apply (beside_idx _ iy to _ _ Hnd Hto). rewrite list_lookup_insert; [done|]. now rewrite insert_length. }
  rewrite Hkept, Hkept' in Hfee.
  assert (HYval : Y = yn + 1 + trade /\ 0 < trade).
  { apply (charged_left (sr_new_destination r) adm y yn trade admin (st_fee p)); try done.
    now rewrite Hadm. }
  destruct HYval as [HYval Htr0].
  assert (Hlen : others_from 0 ix iy (st_c p) = others ix iy (st_c p)) by reflexivity.
  pose proof (others_perm 0 ix iy (st_c p) x y Hixy Hx Hy) as Hperm. cbn [Nat.add] in Hperm. rewrite Hlen in Hperm.
  pose proof (Permutation_length Hperm) as Hl2. cbn [length] in Hl2.
  assert (Hperm' : st_c p' ≡ₚ sr_new_source r :: Y :: others ix iy (st_c p)).
  { pose proof (others_perm 0 ix iy (st_c p') (sr_new_source r) Y Hixy) as Hpm. cbn [Nat.add] in Hpm.
    rewrite Hpm at 1.
    - f_equiv. f_equiv. rewrite HcC. 
      pose proof (others_insert 0 ix iy iy (<[ix:=sr_new_source r]> (st_c p)) Y) as E1. rewrite Nat.sub_0_r in E1.
      rewrite E1 by (auto; lia).
      pose proof (others_insert 0 ix iy ix (st_c p) (sr_new_source r)) as E2. rewrite Nat.sub_0_r in E2.
      rewrite E2 by (auto; lia). done.
    - rewrite HcC, list_lookup_insert_ne, list_lookup_insert by auto. done.
    - rewrite HcC, list_lookup_insert; [done|]. now rewrite insert_length. }
  assert (En : N.of_nat (length (st_c p)) = n) by (unfold n; now rewrite Hlc).
  assert (En2 : N.of_nat (2 + length (others ix iy (st_c p))) = n) by (rewrite <- En; f_equal; clear - Hl2; lia).
  eapply (curve_exact A B D (sr_new_source r) (others ix iy (st_c p)) (yn + 1) Y); try done.
  - rewrite Hns. exact Hxpos.
  - apply Forall_forall. intros z Hz. split; [rewrite Forall_forall in HF; now apply HF|].
    apply others_elem in Hz as (l & Hl & Hli & Hlj). cbn [Nat.add] in Hli, Hlj.
    assert (Hlt : (l < length (st_tokens p))%nat) by (rewrite <- Hlc; eapply lookup_lt_Some; eauto).
    apply lookup_lt_is_Some in Hlt as [t Ht].
    assert (Hz : st_kept p' t = z).
    { unfold st_kept. rewrite Htok, HcC. apply (beside_idx _ l t _ _ Hnd Ht).
      rewrite !list_lookup_insert_ne by congruence. exact Hl. }
    rewrite <- Hz. apply Hbal; [eapply elem_of_list_lookup_2; eauto|].
    intros ->. apply Hli. eapply NoDup_lookup; eauto.
  - rewrite <- Hkept'. apply Hbal; [|congruence]. eapply elem_of_list_lookup_2; eauto.
  - rewrite HYval. clear - Htr0. lia.
  - rewrite En2. replace (length (others ix iy (st_c p))) with (length (st_tokens p) - 2)%nat by (clear - Hl2 Hlc; lia). exact HB.
  - rewrite En2, <- En, Hns. exact Hcurve.
Qed.

(** ** Larger balances, scaled balances *)
Lemma total_mono xs ys : Forall2 N.le xs ys -> total xs <= total ys.
Proof. induction 1; cbn [total foldr]; unfold total in *; lia. Qed.
Lemma product_mono xs ys : Forall2 N.le xs ys -> product xs <= product ys.
Proof. induction 1; cbn [product foldr]; unfold product in *; [lia|]. now apply N.mul_le_mono. Qed.

Lemma at_most_D_mono A xs ys d : Forall2 N.le xs ys -> at_most_D A xs d -> at_most_D A ys d.
Proof.
  intros HF H. unfold at_most_D in *. cbv zeta in *. rewrite <- (Forall2_length _ _ _ HF).
  pose proof (total_mono _ _ HF) as HT. pose proof (product_mono _ _ HF) as HP.
  set (n := N.of_nat (length xs)) in *.
  pose proof (N.mul_le_mono_l _ _ (n ^ n) HP) as HP'.
  set (P := n ^ n * product xs) in *. set (P' := n ^ n * product ys) in *.
  set (Ann := A * n ^ n) in *. set (T := total xs) in *. set (T' := total ys) in *.
  rewrite N.add_1_r, N.pow_succ_r' in *. set (dn := d ^ n) in *.
  destruct (N.eq_0_gt_0_cases d) as [->|Hd]; [lia|].
  assert (Hdn : 0 < dn) by (unfold dn; apply N.neq_0_lt_0, N.pow_nonzero; lia).
  clearbody P P' Ann T T' dn n. clear HP HF.
  assert (HPpos : 0 < P) by (destruct (N.eq_0_gt_0_cases P) as [->|]; [nia|done]).
  assert (Hf : Ann * d <= Ann * T + d) by nia.
  assert (Hf' : Ann * d <= Ann * T' + d) by nia.
  assert (E : Ann * T + d = Ann * d + (Ann * T + d - Ann * d)) by lia.
  assert (E' : Ann * T' + d = Ann * d + (Ann * T' + d - Ann * d)) by lia.
  assert (Hz : Ann * T + d - Ann * d <= Ann * T' + d - Ann * d) by nia.
  set (z := Ann * T + d - Ann * d) in *. set (z' := Ann * T' + d - Ann * d) in *. clearbody z z'.
  assert (H1 : d * dn <= z * P) by nia.
  assert (H2 : z * P <= z' * P') by (now apply N.mul_le_mono).
  nia.
Qed.

Lemma total_scale m xs : total (map (N.mul m) xs) = m * total xs.
Proof. induction xs as [|x xs IH]; cbn [map total foldr]; [lia|]. unfold total in *. lia. Qed.
Lemma product_scale m xs : product (map (N.mul m) xs) = m ^ N.of_nat (length xs) * product xs.
Proof.
  induction xs as [|x xs IH]; [done|]. cbn [map product foldr length]. unfold product in *. rewrite IH.
  rewrite Nat2N.inj_succ, N.pow_succ_r'. lia.
Qed.

Lemma at_most_D_scale A m xs d : 0 < m -> at_most_D A (map (N.mul m) xs) (m * d) <-> at_most_D A xs d.
Proof.
  intros Hm. unfold at_most_D. cbv zeta. rewrite map_length, total_scale, product_scale.
  set (n := N.of_nat (length xs)). rewrite !N.add_1_r, N.pow_mul_l, !N.pow_succ_r'.
  assert (Hmn : 0 < m ^ n) by (apply N.neq_0_lt_0, N.pow_nonzero; lia).
  set (mn := m ^ n) in *. set (dn := d ^ n). set (nn := n ^ n). set (P := product xs). set (T := total xs).
  clearbody mn dn nn P T n.
  assert (Hk : 0 < m * mn) by nia.
  replace (m * mn * (d * dn) + A * nn * (m * d) * (nn * (mn * P)))
    with (m * mn * (d * dn + A * nn * d * (nn * P))) by lia.
  replace (A * nn * (m * T) * (nn * (mn * P)) + m * d * (nn * (mn * P)))
    with (m * mn * (A * nn * T * (nn * P) + d * (nn * P))) by lia.
  symmetry. apply N.mul_le_mono_pos_l. exact Hk.
Qed.

(** Removing shares leaves at least the remaining holders' part of every balance. *)
Lemma st_remove_kept_part p s sh mins v p' out :
  st_remove_by_shares p s sh mins v = Some (p', out) ->
  length (st_decimals p) = length (st_c p) ->
  0 < st_supply p -> 
  Forall2 N.le (map (N.mul (st_supply p')) (st_c p)) (map (N.mul (st_supply p)) (st_c p')).
Proof.
  intros H Hlen HS. apply st_remove_shares_inv in H as (c' & m & _ & Hred & Hle & -> & _). st_unfold.
  apply st_redeem_all_Some in Hred as (Hl1 & _ & _ & Hl2 & Hall).
  apply Forall2_same_length_lookup_2; [rewrite !map_length; lia|].
  intros i x y Hx Hy. rewrite list_lookup_fmap in Hx, Hy.
  destruct (st_c p !! i) as [c|] eqn:Hc; [|done]. injection Hx as <-.
  assert (Hi : (i < length (st_decimals p))%nat) by (rewrite Hlen; eapply lookup_lt_Some; eauto).
  apply lookup_lt_is_Some in Hi as [d Hd].
  destruct (Hall i d c Hd Hc) as (mn & a & l & _ & _ & Hl & Hr). rewrite Hl in Hy. injection Hy as <-.
  apply st_redeem_Some in Hr as (_ & Hcl & -> & _).
  pose proof (div_mul_le (c * sh) _ HS) as Hq. set (q := c * sh / st_supply p) in *. clearbody q. nia.
Qed.

Lemma st_remove_exact p s sh mins v p' out A d d' :
  st_remove_by_shares p s sh mins v = Some (p', out) -> st_wf p -> st_c p <> [] -> 0 < A -> 0 < st_supply p ->
  at_most_D A (st_c p) d -> d' * st_supply p <= d * st_supply p' -> at_most_D A (st_c p') d'.
Proof.
  intros H Hwf Hne HA HS Hd Hle. pose proof Hwf as (_ & Hld & Hlc & _).
  pose proof (st_remove_kept_part _ _ _ _ _ _ _ H) as HF.
  assert (Hlen : length (st_decimals p) = length (st_c p)) by congruence. specialize (HF Hlen HS).
  apply (at_most_D_scale A (st_supply p)); [done|].
  assert (Hne' : map (N.mul (st_supply p)) (st_c p') <> []).
  { pose proof (Forall2_length _ _ _ HF) as Hl. rewrite !map_length in Hl. destruct (st_c p), (st_c p'); done. }
  destruct (N.eq_0_gt_0_cases (st_supply p')) as [E|Hpos].
  - rewrite E in Hle. assert (d' = 0) by nia. subst d'.
    unfold at_most_D. cbv zeta. rewrite N.mul_0_r, N.add_1_r, N.pow_succ_r'. lia.
  - apply (at_most_D_down A _ _ (st_supply p' * d)); [done|done|lia|].
    eapply at_most_D_mono; [exact HF|]. now apply at_most_D_scale.
Qed.

(** ** Shares of unbalanced deposits and withdrawals *)
Lemma charge_difference_Some cv f n d0 d1 old new x :
  charge_difference cv f n d0 d1 old new = Some x -> x = new - imbalance_fee n (fe_trade f) d0 d1 old new.
Proof.
  unfold charge_difference, normalized_trade_fee, imbalance_fee. intros H. cbv zeta in *. inv. subst.
  match goal with H : u128_ratio _ _ _ = _ |- _ => apply u128_ratio_Some in H as (-> & _ & _) end. done.
Qed.
Lemma charge_all_Some cv f n d0 d1 old new xs :
  charge_all cv f n d0 d1 old new = Some xs ->
  xs = zip_with (fun o b => b - imbalance_fee n (fe_trade f) d0 d1 o b) old new.
Proof.
  revert new xs; induction old as [|o old IH]; intros [|b new] xs H; cbn [charge_all] in H; try discriminate H; inv; subst; [done|].
  cbn [zip_with]. f_equal; [eapply charge_difference_Some; eauto|]. eapply IH; eauto.
Qed.

Lemma deposit_exact cv dep old S f m fee :
  compute_lp_amount_for_deposit cv dep old S f = Some (m, fee) ->
  exists d0 d1 d2 new,
    compute_d_with_rates cv old = Some d0 /\ vadd old dep = Some new /\
    compute_d_with_rates cv new = Some d1 /\
    compute_d_with_rates cv (charged_balances (fe_trade f) d0 d1 old new) = Some d2 /\
    d0 <= d2 /\ m = S * (d2 - d0) / d0 /\ m <= S * (d1 - d0) / d0 /\ fee = S * (d1 - d0) / d0 - m.
Proof.
  unfold compute_lp_amount_for_deposit. intros H. cbv zeta in H.
  apply bind_Some in H as (d0 & Hd0 & H). apply bind_Some in H as (new & Hnew & H).
  apply bind_Some in H as (d1 & Hd1 & H). apply bind_Some in H as ([] & Hlt & H).
  apply bind_Some in H as (new2 & Hch & H). apply bind_Some in H as (d2 & Hd2 & H).
  apply bind_Some in H as (p2 & Hp2 & H). apply bind_Some in H as (mint & Hm & H).
  apply bind_Some in H as (p1 & Hp1 & H). apply bind_Some in H as (diff & Hdiff & H).
  apply bind_Some in H as (fe & Hfe & H). injection H as <- <-.
  apply csub_Some in Hp2 as [-> H2]. apply csub_Some in Hp1 as [-> _]. apply csub_Some in Hfe as [-> Hfe].
  apply share_part_Some in Hdiff as (-> & Hpos & _). apply share_part_Some in Hm as (-> & _ & _).
  apply charge_all_Some in Hch. subst new2.
  exists d0, d1, d2, new. split_and!; auto.
Qed.

Lemma withdraw_exact cv wd old S f b fee :
  compute_lp_amount_for_withdraw cv wd old S f = Some (b, fee) ->
  exists d0 d1 d2 new,
    compute_d_with_rates cv old = Some d0 /\ vsub old wd = Some new /\
    compute_d_with_rates cv new = Some d1 /\
    compute_d_with_rates cv (charged_balances (fe_trade f) d0 d1 old new) = Some d2 /\
    d2 <= d0 /\ b = S * (d0 - d2) / d0 /\ S * (d0 - d1) / d0 <= b /\ fee = b - S * (d0 - d1) / d0.
Proof.
  unfold compute_lp_amount_for_withdraw. intros H. cbv zeta in H.
  apply bind_Some in H as (d0 & Hd0 & H). apply bind_Some in H as (new & Hnew & H).
  apply bind_Some in H as (d1 & Hd1 & H). apply bind_Some in H as ([] & Hlt & H).
  apply bind_Some in H as (new2 & Hch & H). apply bind_Some in H as (d2 & Hd2 & H).
  apply bind_Some in H as (p2 & Hp2 & H). apply bind_Some in H as (mint & Hm & H).
  apply bind_Some in H as (p1 & Hp1 & H). apply bind_Some in H as (diff & Hdiff & H).
  apply bind_Some in H as (fe & Hfe & H). injection H as <- <-.
  apply csub_Some in Hp2 as [-> H2]. apply csub_Some in Hp1 as [-> _]. apply csub_Some in Hfe as [-> Hfe].
  apply share_part_Some in Hdiff as (-> & Hpos & _). apply share_part_Some in Hm as (-> & _ & _).
  apply charge_all_Some in Hch. subst new2.
  exists d0, d1, d2, new. split_and!; auto.
Qed.
