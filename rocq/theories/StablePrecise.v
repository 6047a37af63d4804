(** * How close the two solvers of stable pools come to the exact values *)
From Verif Require Import Base BaseLemmas SimplePool SpecSimple SimplePoolProofs SimpleFacts StableMath
  StableMathProofs StablePool SpecStable StablePoolProofs StablePoolInv StableFacts SpecExact StableExact.

(** ** The exact invariant is at most the sum *)
Lemma means xs :
  N.of_nat (length xs) ^ N.of_nat (length xs) * product xs <= total xs ^ N.of_nat (length xs).
Proof.
  induction xs as [|x xs IH]; [cbn; lia|].
  cbn [length product total foldr]. fold (product xs) (total xs). rewrite Nat2N.inj_succ.
  pose proof (tangent (N.of_nat (length xs) * (x + total xs)) ((N.of_nat (length xs) + 1) * total xs) (length xs)) as Ht.
  set (n := N.of_nat (length xs)) in *. set (T := total xs) in *. set (P := product xs) in *. clearbody T P.
  destruct (N.eq_0_gt_0_cases n) as [E|Hn].
  - rewrite E in *. change (0 ^ 0) with 1 in IH. rewrite N.pow_0_r in IH. change (N.succ 0) with 1. rewrite !N.pow_1_r. nia.
  - rewrite <- N.add_1_r. rewrite !N.pow_add_r, !N.pow_1_r in *. rewrite !N.pow_mul_l in Ht.
    assert (Hnn : 0 < n ^ n) by (apply N.neq_0_lt_0, N.pow_nonzero; lia).
    set (a := n ^ n) in *. set (b := (n + 1) ^ n) in *. set (t := T ^ n) in *. set (u := (x + T) ^ n) in *.
    clearbody a b t u.
    (* a n u (x + T) >= n (n + 1) b t x *)
    assert (H1 : n * (n + 1) * (b * t) * x <= a * u * (n * (x + T))) by lia.
    pose proof (N.mul_le_mono_l _ _ (n * (n + 1) * b * x) IH) as H2.
    apply (N.mul_le_mono_pos_l _ _ (n * a)); [nia|]. lia.
Qed.

Lemma at_most_D_total A xs d : 0 < A -> xs <> [] -> Forall (fun x => 0 < x) xs -> at_most_D A xs d -> d <= total xs.
Proof.
  intros HA Hne HF H. destruct (N.le_gt_cases d (total xs)) as [|Hlt]; [done|exfalso].
  unfold at_most_D in H. cbv zeta in H. pose proof (means xs) as Hm.
  set (n := N.of_nat (length xs)) in *. set (T := total xs) in *.
  assert (Hn : 0 < n) by (unfold n; destruct xs; [done|cbn [length]; lia]).
  assert (Hnn : 0 < n ^ n) by (apply N.neq_0_lt_0, N.pow_nonzero; lia).
  assert (HP : 0 < product xs).
  { clear - HF. induction HF as [|x xs Hx HF IH]; cbn [product foldr]; [lia|]. fold (product xs). nia. }
  pose proof (N.pow_le_mono_l T d n ltac:(lia)) as Hp.
  rewrite N.add_1_r, N.pow_succ_r' in H. assert (HP' : 0 < n ^ n * product xs) by nia.
  set (P := n ^ n * product xs) in *. assert (Ha : 0 < A * n ^ n) by nia. set (a := A * n ^ n) in *.
  set (dn := d ^ n) in *. set (Tn := T ^ n) in *. clearbody P a dn Tn T n.
  assert (E : a = a - 1 + 1) by lia. set (h := a - 1) in *. clearbody h. subst a. clear Hnn HF Hne HP.
  (* d dn + h d P <= (h + 1) T P, d > T, dn >= P *)
  assert (Hdn : P <= dn) by lia.
  pose proof (N.mul_le_mono_l _ _ d Hdn) as K1.
  assert (K2 : h * T * P <= h * d * P) by (apply N.mul_le_mono_r; apply N.mul_le_mono_l; lia).
  assert (K3 : T * P < d * P) by (apply N.mul_lt_mono_pos_r; lia).
  lia.
Qed.

(** ** The exact invariant rounded down *)
Lemma at_most_D_dec A xs d : {at_most_D A xs d} + {~ at_most_D A xs d}.
Proof.
  unfold at_most_D. cbv zeta.
  match goal with |- {?a <= ?b} + {_} => destruct (a <=? b) eqn:E end; [left|right].
  - now apply N.leb_le.
  - now apply N.leb_gt, N.lt_nge in E.
Qed.

Lemma floor_D A xs :
  0 < A -> xs <> [] -> Forall (fun x => 0 < x) xs -> exists f, at_most_D A xs f /\ ~ at_most_D A xs (f + 1) /\ f <= total xs.
Proof.
  intros HA Hne HF.
  assert (H : forall k, (exists f, at_most_D A xs f /\ ~ at_most_D A xs (f + 1)) \/ at_most_D A xs k).
  { induction k as [|k IH] using N.peano_ind.
    - right. unfold at_most_D. cbv zeta. rewrite N.add_1_r, N.pow_succ_r'. lia.
    - destruct IH as [IH|IH]; [left; exact IH|]. rewrite <- N.add_1_r.
      destruct (at_most_D_dec A xs (k + 1)) as [H|H]; [right; exact H|left; eauto]. }
  destruct (H (total xs + 1)) as [(f & Hf & Hf')|Hc].
  - exists f. split; [exact Hf|split; [exact Hf'|]]. now apply (at_most_D_total A).
  - apply at_most_D_total in Hc; [lia|done..].
Qed.

(** ** The product loop, from the other side *)
Lemma d_prod_fold w n d p xs q :
  d_prod_loop w n d p xs = Some q ->
  q = foldl (fun c z => c * d / z) p (map (fun c => c * n) xs) /\ Forall (fun c => 0 < c * n) xs.
Proof.
  revert p; induction xs as [|c xs IH]; intros p H; cbn [d_prod_loop] in H.
  - inv. subst. split; [done|constructor].
  - inv. subst. match goal with H : d_prod_loop _ _ _ _ _ = _ |- _ => apply IH in H as [-> HF] end.
    cbn [map foldl]. split; [done|]. constructor; [lia|exact HF].
Qed.

Lemma product_times n xs : product (map (fun c => c * n) xs) = n ^ N.of_nat (length xs) * product xs.
Proof.
  induction xs as [|x xs IH]; [done|]. cbn [map product foldr length]. unfold product in *. rewrite IH.
  rewrite Nat2N.inj_succ, N.pow_succ_r'. lia.
Qed.

Lemma d_prod_ge w n D xs q B :
  d_prod_loop w n D D xs = Some q -> Forall (fun c => D <= B * (n * c)) xs ->
  D ^ (N.of_nat (length xs) + 1) <= n ^ N.of_nat (length xs) * product xs * (q + geometric B (length xs)).
Proof.
  intros H HF. apply d_prod_fold in H as [-> Hpos].
  pose proof (chain_lower D B (map (fun c => c * n) xs) 1 D 1 0) as Hc.
  rewrite map_length, product_times, Nat.add_0_r, !N.mul_1_l in Hc.
  replace (N.of_nat (length xs) + 1) with (N.of_nat (length xs + 1)) by lia. apply Hc.
  - apply Forall_map. apply Forall_forall. intros c Hin. rewrite Forall_forall in HF, Hpos.
    split; [now apply Hpos|]. specialize (HF c Hin). clear - HF. cbn beta in *. lia.
  - change (N.of_nat 1) with 1. rewrite N.pow_1_r. cbn [geometric]. lia.
Qed.

Lemma geometric_le B k : 0 < B -> geometric B k <= (N.of_nat k + 1) * B ^ N.of_nat k.
Proof.
  intros HB. induction k as [|k IH]; [cbn; lia|]. cbn [geometric]. rewrite Nat2N.inj_succ, N.pow_succ_r'.
  assert (0 < B ^ N.of_nat k) by (apply N.neq_0_lt_0, N.pow_nonzero; lia).
  set (g := geometric B k) in *. set (b := B ^ N.of_nat k) in *. clearbody g b. nia.
Qed.

Lemma balanced_power B T xs :
  Forall (fun c => T <= B * (N.of_nat (length xs) * c)) xs ->
  T ^ N.of_nat (length xs) <= B ^ N.of_nat (length xs) * (N.of_nat (length xs) ^ N.of_nat (length xs) * product xs).
Proof.
  generalize (N.of_nat (length xs)) at 1 4 as n. intros n HF.
  induction HF as [|x xs Hx HF IH]; [cbn; lia|]. cbn [length product foldr]. fold (product xs).
  rewrite Nat2N.inj_succ, !N.pow_succ_r'.
  set (a := T ^ N.of_nat (length xs)) in *. set (b := B ^ N.of_nat (length xs)) in *.
  set (c := n ^ N.of_nat (length xs)) in *. set (P := product xs) in *. clearbody a b c P.
  cbn beta in Hx. pose proof (N.mul_le_mono _ _ _ _ Hx IH). lia.
Qed.

(** ** One step from above *)
Lemma step_down n h T M E f D q g :
  D = f + g -> 2 <= g -> 0 < D -> 2 * M <= h -> 0 < h -> E <= M -> (n + 1) * q <= M * D ->
  (h + 1) * T < q + E + h * (f + 1) -> D * (q * n + T * (h + 1)) / (D * h + q * (n + 1)) <= f + g / 2.
Proof.
  intros HD Hg HDp HM Hh HE Hq HT.
  assert (Hden : 0 < D * h + q * (n + 1)) by nia.
  assert (Hhalf : g = 2 * (g / 2) + g mod 2) by (apply N.div_mod; lia).
  assert (Hmod : g mod 2 < 2) by (apply N.mod_lt; lia).
  set (k := g / 2) in *. set (r := g mod 2) in *. clearbody k r.
  apply N.lt_succ_r, N.div_lt_upper_bound; [lia|].
  assert (K1 : D * ((h + 1) * T) < D * (q + E + h * (f + 1))) by (apply N.mul_lt_mono_pos_l; lia).
  assert (Hz : exists z, k + r = z + 1) by (exists (k + r - 1); lia). destruct Hz as [z Hz].
  assert (Hf : D = f + k + 1 + z) by lia.
  assert (K2 : (z + 1) * M <= h * k).
  { rewrite <- Hz. assert (Hrk : k + r <= 2 * k) by lia. pose proof (N.mul_le_mono_r _ _ M Hrk).
    pose proof (N.mul_le_mono_r _ _ k HM). lia. }
  assert (K3 : z * ((n + 1) * q) <= z * (M * D)) by (apply N.mul_le_mono_l; lia).
  pose proof (N.mul_le_mono_r _ _ D K2) as K4. pose proof (N.mul_le_mono_r _ _ D HE) as K5.
  assert (K6 : D * ((n + 1) * q) = (f + k + 1) * ((n + 1) * q) + z * ((n + 1) * q)) by (rewrite Hf; lia).
  set (Q := (n + 1) * q) in *.
  assert (R : (D * h + q * (n + 1)) * N.succ (f + k) = D * h * (f + 1) + D * h * k + (f + k + 1) * Q) by (unfold Q; lia).
  rewrite R.
  assert (L : D * (q * n + T * (h + 1)) + D * q = D * Q + D * ((h + 1) * T)) by (unfold Q; lia).
  clear R HT Hq HM HE Hden Hhalf Hmod Hg HD Hf K2. clearbody Q. 
  set (X := D * ((h + 1) * T)) in *. set (Y := (f + k + 1) * Q) in *. clearbody X Y.
  assert (K1' : X < D * q + D * E + D * h * (f + 1)) by lia. lia.
Qed.

Lemma step_at n h T M E f q :
  0 < f -> 0 < h -> 2 * M <= h -> E <= M -> (h + 1) * T < q + E + M + h * (f + 1) ->
  f * (q * n + T * (h + 1)) / (f * h + q * (n + 1)) <= f + 1.
Proof.
  intros Hf Hh HM HE HT.
  assert (Hden : 0 < f * h + q * (n + 1)) by nia.
  apply N.lt_succ_r, N.div_lt_upper_bound; [lia|].
  assert (K1 : f * ((h + 1) * T) < f * (q + E + M + h * (f + 1))) by (apply N.mul_lt_mono_pos_l; lia).
  assert (K2 : f * (E + M) <= f * h) by (apply N.mul_le_mono_l; lia). lia.
Qed.

Lemma step_one n h T M E f q :
  0 < h -> 2 * M <= h -> E <= M -> (h + 1) * T < q + E + h * (f + 1) ->
  (f + 1) * (q * n + T * (h + 1)) / ((f + 1) * h + q * (n + 1)) <= f + 1.
Proof.
  intros Hh HM HE HT.
  assert (Hden : 0 < (f + 1) * h + q * (n + 1)) by nia.
  apply N.lt_succ_r, N.div_lt_upper_bound; [lia|].
  assert (K1 : (f + 1) * ((h + 1) * T) < (f + 1) * (q + E + h * (f + 1))) by (apply N.mul_lt_mono_pos_l; lia).
  assert (K2 : (f + 1) * E <= (f + 1) * h) by (apply N.mul_le_mono_l; lia). lia.
Qed.

Lemma d_step_even w A B xs D D' f :
  let n := N.of_nat (length xs) in
  even_balances A B xs -> 0 < total xs -> d_step w n A (total xs) xs D = Some D' ->
  at_most_D A xs f -> ~ at_most_D A xs (f + 1) -> f <= D -> D <= total xs ->
  f <= D' /\ (D < f + 2 -> D' <= f + 1) /\ (f + 2 <= D -> D' <= f + (D - f) / 2).
Proof.
  intros n [HF HB] HTp H Hf Hf' HfD HDT. fold n in HF, HB.
  split; [eapply d_step_lower; eauto|]. unfold d_step in H.
  apply bind_Some in H as (q & Hq & H). apply bind_Some in H as (nn & Hnn & H). apply bind_Some in H as (ann & Hann & H).
  apply bind_Some in H as (lev & Hlev & H). apply bind_Some in H as (a & Ha & H). apply bind_Some in H as (b & Hb & H).
  apply bind_Some in H as (num & Hnum & H). apply bind_Some in H as (ann1 & Hann1 & H). apply bind_Some in H as (e & He & H).
  apply bind_Some in H as (g & Hg & H). apply bind_Some in H as (den & Hden & H).
  apply cpow_Some in Hnn as [-> _]. apply cmul_Some in Hann as [-> _]. apply cmul_Some in Hlev as [-> _].
  apply cmul_Some in Ha as [-> _]. apply cadd_Some in Hb as [-> _]. apply cmul_Some in Hnum as [-> _].
  apply csub_Some in Hann1 as [-> Hone]. apply cmul_Some in He as [-> _]. apply cmul_Some in Hg as [-> _].
  apply cadd_Some in Hden as [-> _]. apply cdiv_Some in H as [-> Hpos].
  (* the facts about the product *)
  assert (HFD : Forall (fun c => D <= B * (n * c)) xs).
  { eapply Forall_impl; [exact HF|]. cbn beta. intros c Hc. lia. }
  pose proof (d_prod_ge _ _ _ _ _ _ Hq HFD) as Hge. fold n in Hge.
  apply d_prod_le in Hq as [Hle HP]. fold n in Hle, HP.
  pose proof (balanced_power B D xs HFD) as HDn. fold n in HDn.
  pose proof (balanced_power B (total xs) xs HF) as HTn. fold n in HTn.
  pose proof (means xs) as Hmean. fold n in Hmean.
  assert (HB0 : 0 < B).
  { destruct (N.eq_0_gt_0_cases B) as [->|]; [|done]. destruct xs as [|x xs]; [cbn in HTp; lia|].
    inversion HF as [|? ? Hx]; subst. cbn beta in Hx. lia. }
  pose proof (geometric_le B (length xs) HB0) as HE. fold n in HE.
  set (E := geometric B (length xs)) in *. clearbody E.
  pose proof (tangent f (f + 1) (length xs)) as Htan. fold n in Htan.
  pose proof (N.pow_le_mono_l (f + 1) D (n + 1)) as Hpow.
  pose proof (N.pow_le_mono_l (f + 1) (total xs) n) as Hpow2.
  unfold at_most_D in Hf, Hf'. cbv zeta in Hf, Hf'. fold n in Hf, Hf'. apply N.nle_gt in Hf'.
  set (P := n ^ n * product xs) in *. set (T := total xs) in *. set (K := B ^ n) in *.
  set (Ann := A * n ^ n) in *. assert (exists M, M = (n + 1) * K) as [M HMK] by eauto.
  assert (Ea : Ann = Ann - 1 + 1) by lia. set (h := Ann - 1) in *.
  assert (HM : 2 * M <= h) by (rewrite HMK; unfold h; lia).
  assert (Hh : 0 < h).
  { assert (0 < M); [|lia]. rewrite HMK. unfold K. assert (B ^ n <> 0) by (apply N.pow_nonzero; lia). apply N.mul_pos_pos; lia. }
  assert (HEM : E <= M) by (rewrite HMK; lia).
  assert (HqM : (n + 1) * q <= M * D).
  { apply (N.mul_le_mono_pos_l _ _ P HP). rewrite HMK. pose proof (N.mul_le_mono_l _ _ ((n + 1) * D) HDn) as K1.
    pose proof (N.mul_le_mono_l _ _ (n + 1) Hle) as K2. clear - K1 K2. lia. }
  assert (HDp : 0 < D). { destruct (N.eq_0_gt_0_cases D) as [E0|]; [|done]. rewrite E0, N.mul_0_r in HqM. rewrite E0 in Hpos. exfalso. clear - HqM Hpos. lia. }
  clearbody h K P T. clearbody Ann. subst Ann.
  assert (Hsucc : forall a, a ^ (n + 1) = a * a ^ n) by (intros a; now rewrite N.add_1_r, N.pow_succ_r').
  rewrite !Hsucc in Hf. rewrite !Hsucc in Hf'. rewrite !Hsucc in Hge. rewrite !Hsucc in Htan. rewrite !Hsucc in Hpow.
  split.
  - intros HD2. destruct (N.eq_dec D f) as [->|HDf].
    + apply (step_at n h T M E f q HDp Hh HM HEM).
      destruct (N.eq_dec f T) as [->|HfT].
      * (* T <= q + E *)
        assert (T <= q + E).
        { apply (N.mul_le_mono_pos_l _ _ P HP). pose proof (N.mul_le_mono_l _ _ T Hmean). lia. }
        nia.
      * apply (N.mul_lt_mono_pos_l P); [exact HP|].
        specialize (Hpow2 ltac:(lia)).
        set (F := f + 1) in *.
        pose proof (N.mul_le_mono_l _ _ (n + 1) Hpow2) as K1. pose proof (N.mul_le_mono_l _ _ (n + 1) HTn) as K2.
        set (Fn := F ^ n) in *. set (fn := f ^ n) in *. set (Tn := T ^ n) in *. clearbody Fn fn Tn.
        assert (K3 : F * Fn <= f * fn + (n + 1) * Fn) by (unfold F in *; lia).
        assert (K4 : (n + 1) * Fn <= M * P) by (rewrite HMK; lia).
        clear - K3 K4 Hf' Hge. lia.
    + assert (D = f + 1) by lia. subst D.
      apply (step_one n h T M E f q Hh HM HEM).
      apply (N.mul_lt_mono_pos_l P); [exact HP|]. lia.
  - intros HD2. apply (step_down n h T M E f D q (D - f)); try lia.
    apply (N.mul_lt_mono_pos_l P); [exact HP|]. specialize (Hpow ltac:(lia)). lia.
Qed.

(** ** The iteration for the invariant *)
Lemma close_spec a b : close a b = true <-> a <= b + 1 /\ b <= a + 1.
Proof. unfold close. destruct (N.ltb_spec b a); rewrite N.leb_le; lia. Qed.

Lemma d_loop_even k fuel w A B xs D D' f :
  even_balances A B xs -> 0 < total xs -> at_most_D A xs f -> ~ at_most_D A xs (f + 1) ->
  (k < fuel)%nat -> f <= D -> D <= total xs -> D - f < 2 ^ N.of_nat k ->
  d_loop fuel w (N.of_nat (length xs)) A (total xs) xs D = Some D' -> D' <= f + 1.
Proof.
  intros He HT Hf Hf'. revert fuel D; induction k as [|k IH]; intros fuel D Hk HfD HDT Hg H.
  all: destruct fuel as [|fuel]; [lia|]; cbn [d_loop] in H; apply bind_Some in H as (D1 & Hs & H).
  all: destruct (d_step_even _ _ _ _ _ _ _ He HT Hs Hf Hf' HfD HDT) as (H1 & H2 & H3).
  - change (2 ^ N.of_nat 0) with 1 in Hg. assert (D = f) by lia. subst D. specialize (H2 ltac:(lia)).
    assert (E : close D1 f = true) by (apply close_spec; lia). rewrite E in H. apply mret_Some in H. lia.
  - destruct (N.lt_ge_cases D (f + 2)) as [Hc|Hc].
    + specialize (H2 Hc). assert (E : close D1 D = true) by (apply close_spec; lia). rewrite E in H.
      apply mret_Some in H. lia.
    + specialize (H3 Hc).
      assert (Hd : D - f = 2 * ((D - f) / 2) + (D - f) mod 2) by (apply N.div_mod; lia).
      assert (Hm : (D - f) mod 2 < 2) by (apply N.mod_lt; lia).
      rewrite Nat2N.inj_succ, N.pow_succ_r' in Hg. set (p := 2 ^ N.of_nat k) in *.
      set (h := (D - f) / 2) in *. set (r := (D - f) mod 2) in *. clearbody p h r.
      destruct (close D1 D) eqn:E.
      * apply close_spec in E. apply mret_Some in H. lia.
      * eapply (IH fuel D1); [lia|exact H1|lia|lia|exact H].
Qed.

Lemma even_positive A B xs : even_balances A B xs -> 0 < total xs -> Forall (fun x => 0 < x) xs.
Proof.
  intros [HF _] HT. eapply Forall_impl; [exact HF|]. cbn beta. intros x Hx. destruct (N.eq_0_gt_0_cases x) as [->|]; [|done]. lia.
Qed.

Lemma compute_d_even cv xs A B D :
  even_balances A B xs -> 0 < A -> compute_amp_factor cv = Some A -> compute_d cv xs = Some D -> at_most_D A xs (D - 1).
Proof.
  intros He HA Ha H. unfold compute_d in H. apply bind_Some in H as (s & Hs & H). pose proof Hs as Hs'.
  apply csum_total in Hs'. rewrite N.add_0_l in Hs'. subst s.
  destruct (N.eqb_spec (total xs) 0) as [E|HT].
  - apply mret_Some in H. subst D. unfold at_most_D. cbv zeta. rewrite N.add_1_r, N.pow_succ_r'. lia.
  - rewrite Ha in H. cbn [mbind option_bind] in H.
    assert (HT' : 0 < total xs) by lia. assert (Hne : xs <> []) by (intros ->; cbn in HT'; lia).
    destruct (floor_D A xs HA Hne (even_positive _ _ _ He HT')) as (f & Hf & Hf' & HfT).
    assert (D <= f + 1).
    { eapply (d_loop_even 128); try eassumption; [lia|lia|].
      assert (total xs < W128); [|assert (E : 2 ^ N.of_nat 128 = W128) by (vm_compute; reflexivity); rewrite E; lia].
      clear - Hs HT. revert Hs HT. generalize (total xs) as t. intros t Hs HT.
      destruct xs as [|x xs]; [cbn in Hs; apply mret_Some in Hs; lia|].
      cbn [csum] in Hs. apply bind_Some in Hs as (y & Hy & Hs). apply cadd_Some in Hy as [-> Hy].
      clear HT. revert Hy Hs. generalize (0 + x) as y. induction xs as [|x' xs IH]; intros y Hy Hs; cbn [csum] in Hs.
      - apply mret_Some in Hs. rewrite <- Hs. exact Hy.
      - apply bind_Some in Hs as (z & Hz & Hs). apply cadd_Some in Hz as [-> Hz]. eapply IH; eauto. }
    apply (at_most_D_down A xs _ f HA Hne); [lia|exact Hf].
Qed.

(** ** The iteration for the balance of the outgoing token *)
(** [f] is the root of [y^2 + (b - d) y = c] rounded down. *)
Definition y_floor (b c d f : N) : Prop :=
  f * f + b * f <= c + d * f /\ c + d * (f + 1) < (f + 1) * (f + 1) + b * (f + 1).

Lemma y_floor_exists b c d : exists f, y_floor b c d f.
Proof.
  assert (H : forall k, (exists f, y_floor b c d f) \/ k * k + b * k <= c + d * k).
  { induction k as [|k IH] using N.peano_ind; [right; lia|]. destruct IH as [IH|IH]; [left; exact IH|].
    rewrite <- N.add_1_r. destruct (N.le_gt_cases ((k + 1) * (k + 1) + b * (k + 1)) (c + d * (k + 1))) as [|Hc]; [right; done|].
    left. exists k. split; assumption. }
  destruct (H (c + d + 1)) as [|Hc]; [done|exfalso]. nia.
Qed.

Lemma y_step_spec w b c d y y' :
  y_step w b c d y = Some y' -> y' = (y * y + c) / (y * 2 + b - d) /\ 0 < y * 2 + b - d.
Proof.
  unfold y_step. intros H. inv. subst. rewrite N.pow_2_r in *. split; [done|]. lia.
Qed.

Lemma two_squares a b : 2 * (a * b) <= a * a + b * b.
Proof.
  destruct (N.le_ge_cases a b) as [H|H];
    [replace b with (a + (b - a)) by lia; generalize (b - a) as z | replace a with (b + (a - b)) by lia; generalize (a - b) as z];
    clear H; intros z; lia.
Qed.

Lemma y_step_near w b c d y y' f :
  y_floor b c d f -> y_step w b c d y = Some y' ->
  f <= y' /\ (y = f -> y' <= f + 1) /\ (f < y -> y' <= f + (y - f) / 2).
Proof.
  intros [H1 H2] H. apply y_step_spec in H as [-> Hpos].
  assert (E : y * 2 + b = (y * 2 + b - d) + d) by lia. set (e := y * 2 + b - d) in *. clearbody e.
  split; [|split].
  - apply N.div_le_lower_bound; [lia|].
    assert (K : 2 * (y * f) <= y * y + f * f) by apply two_squares.
    assert (K1 : (y * 2 + b) * f = (e + d) * f) by now rewrite E.
    clear - H1 K K1. lia.
  - intros ->. apply N.lt_succ_r, N.div_lt_upper_bound; [lia|].
    assert (K1 : (f * 2 + b) * (f + 1) = (e + d) * (f + 1)) by now rewrite E.
    clear - K1 H2 E Hpos. lia.
  - intros Hy.
    assert (Hg : y - f = 2 * ((y - f) / 2) + (y - f) mod 2) by (apply N.div_mod; lia).
    assert (Hm : (y - f) mod 2 < 2) by (apply N.mod_lt; lia).
    set (k := (y - f) / 2) in *. set (r := (y - f) mod 2) in *. clearbody k r.
    apply N.lt_succ_r, N.div_lt_upper_bound; [lia|].
    assert (Hz : exists z, y = f + 1 + z /\ z <= 2 * k) by (exists (y - f - 1); lia). destruct Hz as (z & -> & Hz).
    assert (HF : d + 1 <= f + 1 + b).
    { destruct (N.le_gt_cases (f + 1 + b) d) as [Hc|]; [|lia]. pose proof (N.mul_le_mono_r _ _ (f + 1) Hc) as Hc'.
      clear - Hc' H2. lia. }
    replace (N.succ (f + k)) with (f + 1 + k) by lia. clear Hg Hm Hy H1 r Hpos.
    set (F := f + 1) in *. clearbody F. clear f.
    pose proof (N.mul_le_mono_l _ _ z Hz) as K1. pose proof (N.mul_le_mono_l _ _ k HF) as K2.
    assert (K3 : ((F + z) * 2 + b) * (F + k) = (e + d) * (F + k)) by now rewrite E.
    clear - K1 K2 K3 H2. lia.
Qed.

Lemma y_newton_near k fuel w b c d y q f :
  y_floor b c d f -> (k < fuel)%nat -> f <= y -> y - f < 2 ^ N.of_nat k ->
  y_newton fuel w b c d y = Some q -> f <= q /\ q <= f + 1.
Proof.
  intros Hf. revert fuel y; induction k as [|k IH]; intros fuel y Hk Hfy Hg H.
  all: destruct fuel as [|fuel]; [lia|]; cbn [y_newton] in H; apply bind_Some in H as (y1 & Hs & H).
  all: destruct (y_step_near _ _ _ _ _ _ _ Hf Hs) as (H1 & H2 & H3).
  - change (2 ^ N.of_nat 0) with 1 in Hg. assert (y = f) by lia. subst y. specialize (H2 eq_refl).
    assert (E : close y1 f = true) by (apply close_spec; lia). rewrite E in H. apply mret_Some in H. lia.
  - destruct (N.eq_dec y f) as [->|Hne].
    + specialize (H2 eq_refl). assert (E : close y1 f = true) by (apply close_spec; lia). rewrite E in H. apply mret_Some in H. lia.
    + specialize (H3 ltac:(lia)).
      assert (Hd : y - f = 2 * ((y - f) / 2) + (y - f) mod 2) by (apply N.div_mod; lia).
      assert (Hm : (y - f) mod 2 < 2) by (apply N.mod_lt; lia).
      rewrite Nat2N.inj_succ, N.pow_succ_r' in Hg. set (p := 2 ^ N.of_nat k) in *.
      set (h := (y - f) / 2) in *. set (r := (y - f) mod 2) in *. clearbody p h r.
      destruct (close y1 y) eqn:E.
      * apply close_spec in E. apply mret_Some in H. lia.
      * eapply (IH fuel y1); [lia|exact H1|lia|exact H].
Qed.

(** From a start below the root the first step may go far above it. *)
Lemma y_newton_start w b c d q f :
  y_floor b c d f -> f < 2 ^ 128 -> d < 2 ^ 192 -> 8 <= d -> y_newton 256 w b c d d = Some q -> f <= q /\ q <= f + 1.
Proof.
  intros Hf HfW HdW Hd H.
  destruct (N.le_gt_cases f d) as [Hc|Hc].
  - eapply (y_newton_near 192 256); [exact Hf|lia|exact Hc| |exact H]. change (N.of_nat 192) with 192.
    eapply N.le_lt_trans; [apply N.le_sub_l|exact HdW].
  - change 256%nat with (S 255) in H. cbn [y_newton] in H. apply bind_Some in H as (y1 & Hs & H).
    destruct (y_step_near _ _ _ _ _ _ _ Hf Hs) as (H1 & _ & _).
    apply y_step_spec in Hs as [Hy1 Hpos].
    assert (Hy : y1 < 2 ^ 254).
    { rewrite Hy1. apply N.div_lt_upper_bound; [lia|]. destruct Hf as [_ Hf].
      assert (E : (f + 1) * (f + 1) <= 2 ^ 128 * 2 ^ 128) by (apply N.mul_le_mono; lia).
      rewrite <- N.pow_add_r in E. change (128 + 128) with 256 in E.
      replace (d * 2 + b - d) with (d + b) by lia.
      assert (E2 : b * (f + 1) <= b * 2 ^ 128) by (apply N.mul_le_mono_l; lia).
      assert (E3 : d * d <= d * 2 ^ 128) by (apply N.mul_le_mono_l; lia).
      assert (E4 : 2 ^ 256 = 4 * 2 ^ 254) by reflexivity. rewrite E4 in E.
      assert (E5 : 8 * 2 ^ 253 <= d * 2 ^ 253) by (apply N.mul_le_mono_r; lia).
      assert (E6 : 2 ^ 254 = 2 * 2 ^ 253) by reflexivity. rewrite E6 in *.
      assert (E7 : 2 ^ 128 <= 2 ^ 253) by (apply N.pow_le_mono_r; lia).
      pose proof (N.mul_le_mono_l _ _ b E7). pose proof (N.mul_le_mono_l _ _ d E7).
      set (G := 2 ^ 253) in *. set (W := 2 ^ 128) in *. clearbody G W. lia. }
    destruct (close y1 d) eqn:Ec.
    { apply close_spec in Ec. apply mret_Some in H. subst q. split; [exact H1|lia]. }
    eapply (y_newton_near 254 255); [exact Hf|lia|exact H1| |exact H]. change (N.of_nat 254) with 254.
    eapply N.le_lt_trans; [apply N.le_sub_l|exact Hy].
Qed.

(** ** The exact curve from below *)
Lemma chain_upper D zs (k : nat) c0 P0 :
  Forall (fun z => 0 < z) zs -> P0 * c0 <= D ^ N.of_nat k ->
  P0 * product zs * foldl (fun c z => c * D / z) c0 zs <= D ^ N.of_nat (length zs + k).
Proof.
  revert k c0 P0; induction zs as [|z zs IH]; intros k c0 P0 HF H; cbn [foldl length product foldr].
  - rewrite N.mul_1_r. exact H.
  - inversion HF as [|? ? Hz HF']; subst. fold (product zs).
    replace (S (length zs) + k)%nat with (length zs + S k)%nat by lia. rewrite N.mul_assoc.
    apply (IH (S k) _ (P0 * z) HF'). rewrite Nat2N.inj_succ, N.pow_succ_r'.
    pose proof (N.mul_le_mono_l _ _ D H) as H1. pose proof (div_mul_le (c0 * D) z Hz) as H2.
    pose proof (N.mul_le_mono_l _ _ P0 H2) as H3. lia.
Qed.

Lemma curve_below A D x zs f Y xs :
  let n := N.of_nat (2 + length zs) in
  0 < A -> 0 < x -> Forall (fun z => 0 < z) zs -> y_floor (curve_b A n D x zs) (curve_c A n D x zs) D f ->
  Y + 1 <= f -> xs ≡ₚ x :: Y :: zs -> at_least_D A xs D.
Proof.
  intros n HA Hx HF [Hf Hf'] HY Hp. unfold at_least_D. cbv zeta.
  rewrite (total_perm _ _ Hp), (product_perm _ _ Hp), (Permutation_length Hp). cbn [length]. fold n.
  change (N.of_nat (S (S (length zs)))) with n.
  set (b := curve_b A n D x zs) in *. set (c := curve_c A n D x zs) in *.
  (* [Y] is below the curve with a larger linear coefficient *)
  assert (Hc : Y * Y + (b + 1) * Y <= c + D * Y).
  { assert (Hv : D <= f + b).
    { destruct (N.le_gt_cases D (f + b)) as [|Hc]; [done|exfalso]. assert (Hc' : f + 1 + b <= D) by lia.
      pose proof (N.mul_le_mono_r _ _ (f + 1) Hc'). clear - H Hf'. lia. }
    assert (Ev : exists v, f + b = D + v) by (exists (f + b - D); lia). destruct Ev as [v Ev].
    assert (Ej : exists j, f = Y + 1 + j) by (exists (f - (Y + 1)); lia). destruct Ej as [j Ej].
    assert (K0 : (f + b) * f = (D + v) * f) by now rewrite Ev. assert (K1 : v * f <= c) by (clear - K0 Hf; lia).
    assert (K2 : Y + j + b + 1 = D + v) by lia.
    assert (K3 : (Y + j + b + 1) * Y = (D + v) * Y) by now rewrite K2.
    assert (K4 : v * Y <= v * f) by (apply N.mul_le_mono_l; lia).
    clear - K1 K3 K4. lia. }
  clear Hf Hf' HY. unfold b, curve_b in Hc. rewrite foldl_total in Hc.
  assert (Hn : 0 < n) by (unfold n; lia).
  assert (Hnn : 0 < n ^ n) by (apply N.neq_0_lt_0, N.pow_nonzero; lia).
  assert (HAnn : 0 < A * n ^ n) by (apply N.mul_pos_pos; lia).
  assert (HM : 0 < A * n ^ n * n ^ n) by (apply N.mul_pos_pos; lia).
  pose proof (chain_upper D zs 2 (D * D / x) x HF) as Hch.
  assert (H0 : x * (D * D / x) <= D ^ N.of_nat 2).
  { change (N.of_nat 2) with 2. rewrite N.pow_2_r. pose proof (div_mul_le (D * D) x Hx). lia. }
  specialize (Hch H0). clear H0. replace (length zs + 2)%nat with (2 + length zs)%nat in Hch by lia. fold n in Hch.
  unfold c, curve_c in Hc. clear b c.
  set (cl := foldl (fun c z => c * D / z) (D * D / x) zs) in *. clearbody cl.
  pose proof (div_mul_le (cl * D) _ HM) as Hcl. set (c := cl * D / (A * n ^ n * n ^ n)) in *. clearbody c.
  pose proof (lt_div_succ D _ HAnn) as Hq. set (q := D / (A * n ^ n)) in *. clearbody q.
  cbn [total product foldr]. fold (total zs) (product zs).
  set (s := total zs) in *. set (Q := product zs) in *. clear Hp HF HM HA.
  rewrite N.add_1_r, N.pow_succ_r'.
  set (Dn := D ^ n) in *. set (nn := n ^ n) in *. clearbody s Q Dn nn. set (Ann := A * nn) in *. clearbody Ann. clear n Hn.
  pose proof (N.mul_le_mono_l _ _ D Hch) as K1.
  pose proof (N.mul_le_mono_l _ _ (x * Q) Hcl) as K2.
  pose proof (N.mul_le_mono_l _ _ (x * Q * (Ann * nn)) Hc) as K3.
  assert (Hq' : D * (x * Q * nn * Y) <= (q + 1) * Ann * (x * Q * nn * Y)) by (apply N.mul_le_mono_r; lia).
  clear - K1 K2 K3 Hq'. lia.
Qed.

Lemma root_not_above b c d f q :
  y_floor b c d f ->
  (Z.of_N c < (Z.of_N q + 1) * (Z.of_N q + 1) + (Z.of_N b - Z.of_N d) * (Z.of_N q + 1))%Z -> f <= q.
Proof.
  intros [Hf _] H. destruct (N.le_gt_cases f q) as [|Hc]; [done|exfalso].
  assert (Ej : exists j, f = q + 1 + j) by (exists (f - (q + 1)); lia). destruct Ej as [j ->].
  assert (H' : c + d * (q + 1) < (q + 1) * (q + 1) + b * (q + 1)) by (clear Hf Hc; lia). clear H.
  set (Y := q + 1) in *. clearbody Y.
  assert (Hv : d <= Y + b).
  { destruct (N.le_gt_cases d (Y + b)) as [|Hd]; [done|exfalso]. assert (Hd' : Y + b <= d) by lia.
    pose proof (N.mul_le_mono_r _ _ Y Hd'). clear - H H'. lia. }
  pose proof (N.mul_le_mono_r _ _ j Hv). clear - H H' Hf. lia.
Qed.

Lemma compute_y_near cv x xs ix iy y amp D :
  compute_amp_factor cv = Some amp -> compute_y cv x xs ix iy = Some y -> compute_d cv xs = Some D ->
  y < W128 -> 8 <= D -> cv_w cv = W256 \/ cv_w cv = W384 ->
  0 < x /\ Forall (fun z => 0 < z) (others ix iy xs) /\
  exists f, y_floor (curve_b amp (N.of_nat (length xs)) D x (others ix iy xs))
              (curve_c amp (N.of_nat (length xs)) D x (others ix iy xs)) D f /\ f <= y /\ y <= f + 1.
Proof.
  intros Hamp H HD HyW HD8 Hw. pose proof H as Hex.
  apply (compute_y_exact _ _ _ _ _ _ _ Hamp) in Hex as (D' & HD' & Hx & HF & _).
  rewrite HD in HD'. injection HD' as <-. split; [exact Hx|]. split; [exact HF|].
  unfold compute_y in H. apply bind_Some in H as ([[b c] D'] & Hc & H).
  pose proof (y_newton_above 256 _ _ _ _ _ _ ltac:(lia) H) as Hab.
  pose proof Hc as Hc'. apply (y_coeffs_spec _ _ _ _ _ _ _ _ _ Hamp) in Hc' as (Hd & Eb & Ec).
  rewrite HD in Hd. injection Hd as <-.
  destruct (y_floor_exists b c D) as [f Hf]. pose proof (root_not_above _ _ _ _ _ Hf Hab) as Hfy.
  assert (HDW : D < 2 ^ 192).
  { unfold y_coeffs in Hc. rewrite Hamp in Hc. cbn [mbind option_bind] in Hc.
    apply bind_Some in Hc as (nn & Hnn & Hc). apply bind_Some in Hc as (ann & Hann & Hc).
    apply bind_Some in Hc as (d' & Hd' & Hc). apply bind_Some in Hc as (dd & Hdd & Hc).
    rewrite HD in Hd'. injection Hd' as <-. apply cmul_Some in Hdd as [_ Hdd].
    destruct (N.lt_ge_cases D (2 ^ 192)) as [|Hge]; [done|exfalso].
    assert (Hsq : 2 ^ 192 * 2 ^ 192 <= D * D) by (now apply N.mul_le_mono).
    assert (E1 : W384 = 2 ^ 192 * 2 ^ 192) by (vm_compute; reflexivity).
    assert (E2 : W256 <= 2 ^ 192 * 2 ^ 192) by (apply N.leb_le; vm_compute; reflexivity).
    set (G := 2 ^ 192 * 2 ^ 192) in *. clearbody G. destruct Hw as [Hw|Hw]; rewrite Hw in Hdd; lia. }
  assert (EW : W128 = 2 ^ 128) by (vm_compute; reflexivity).
  exists f. rewrite <- Eb, <- Ec. split; [exact Hf|].
  apply (y_newton_start (cv_w cv) b c D y f); [exact Hf| |exact HDW|exact HD8|exact H].
  rewrite <- EW. lia.
Qed.

(** ** The amount of a trade *)
Lemma st_swap_fair now p e ti a to mn f v p' out D :
  let A := st_get_amp p (pe_now e) in
  st_reachable now p -> now <= pe_now e -> pe_now e < 2 ^ 64 -> st_kind p = KStable ->
  st_swap p e ti a to mn f v = Some (p', out) ->
  st_D p (pe_now e) (map (fun _ => PRECISION) (st_tokens p)) (st_c p) = Some D -> 8 <= D ->
  exists gross,
    gross <= st_kept p to /\ st_kept p to - st_kept p' to = gross - gross * st_fee p / FEE_DIVISOR /\
    out = in_token_units 18 (st_dec p to) (st_kept p to - st_kept p' to) /\
    forall iy, st_tokens p !! iy = Some to -> at_least_D A (<[iy := st_kept p to - gross - 3]> (st_c p')) D.
Proof.
  intros A Hreach Hle HW Hk H HD HD8. pose proof (st_reachable_wf _ _ Hreach) as Hwf.
  pose proof (st_reachable_amp _ _ Hreach) as Hamp. rewrite <- W64_pow in HW.
  apply st_swap_inv in H as (ix & iy & rates & r & x & y & di & do_ & cin & m & s2 & adm & Hne & Hixy & Hti & Hto & _ & Hrates & Hdi & Hdo
    & Hx & Hy & Hcin & Hsw & Hout & _ & _ & Hadm & _ & _ & Hp' & _).
  unfold st_get_rates in Hrates. rewrite Hk in Hrates. injection Hrates as <-.
  pose proof Hwf as (Hnd & Hld & Hlc & HcW & _).
  apply swap_to_inv in Hsw as (ri & ro & x' & y' & rated & xr & yr & yn & trade & admin & Hri & Hro & Hx' & Hy' & Hrated
    & Hmx & Hmy & Hxr & Hyr & Hri0 & Hro0 & Hcy & Hyn & HxW & Htrade & Hadmin & Htr & Had & Hns & Hnd' & Hsr & Had' & _).
  cbn [st_curve cv_rates] in *.
  rewrite rate_balances_unit in Hrated by (try done; lia). injection Hrated as <-.
  apply list_lookup_fmap_Some in Hri as (? & _ & ->). apply list_lookup_fmap_Some in Hro as (? & _ & ->).
  rewrite unit_back in Hns, Hnd', Hsr, Had'.
  rewrite N.div_mul in Hns, HxW, Hcy by (pose proof PRECISION_pos; lia).
  pose proof (st_amp_value now p (pe_now e) (map (fun _ => PRECISION) (st_tokens p)) Hamp Hle HW) as HA.
  fold A in HA.
  assert (HA0 : 0 < A).
  { pose proof (amp_between _ _ HA) as Hb. cbn [st_curve cv_init cv_target] in Hb. destruct Hamp as (Hi & Ht & _). unfold MIN_AMP in *. clear - Hb Hi Ht. lia. }
  assert (HD' := HD). unfold st_D, compute_d_with_rates in HD'. cbn [st_curve cv_rates] in HD'. rewrite rate_balances_unit in HD' by (try done; lia).
  cbn [mbind option_bind] in HD'.
  pose proof (lookup_lt_Some _ _ _ Hx) as Lx. pose proof (lookup_lt_Some _ _ _ Hy) as Ly.
  rewrite Hx in Hx'. injection Hx' as <-. rewrite Hy in Hy'. injection Hy' as <-.
  rewrite Hx in Hxr. injection Hxr as <-. rewrite Hy in Hyr. injection Hyr as <-.
  assert (HyW : y < W128) by (rewrite Forall_forall in HcW; apply HcW; eapply elem_of_list_lookup_2; eauto).
  assert (HynW : yn < W128) by (clear - HyW Hyn; lia).
  destruct (compute_y_near _ _ _ _ _ _ _ _ HA Hcy HD' HynW HD8) as (Hxpos & HF & fl & Hfl & Hfy & Hyf).
  { left. unfold st_curve, wide. cbn [cv_w]. now rewrite Hk. }
  assert (Htok : st_tokens p' = st_tokens p) by now subst.
  assert (HcC : st_c p' = <[iy := sr_new_destination r + adm]> (<[ix := sr_new_source r]> (st_c p))) by now subst. clear Hp'.
  assert (Hkept : st_kept p to = y) by (eapply st_kept_idx; eauto).
  set (Y := sr_new_destination r + adm) in *.
  assert (Hkept' : st_kept p' to = Y).
  { unfold st_kept. rewrite Htok, HcC. apply (beside_idx _ iy to _ _ Hnd Hto). rewrite list_lookup_insert; [done|]. now rewrite insert_length. }
  assert (HYd : y - Y = y - yn - 1 - trade) by (unfold Y; rewrite Hadm, Hnd', Had'; clear - Had; lia).
  exists (y - yn - 1). rewrite Hkept, Hkept'.
  split; [clear; lia|]. split; [rewrite HYd, Htrade; done|].
  split.
  { rewrite Hout, HYd, <- Hsr, Hk. f_equal. unfold st_dec. symmetry. now apply (beside_idx _ iy to _ _ Hnd Hto). }
  intros iy' Hto'. assert (iy' = iy) by (eapply NoDup_lookup; eauto). subst iy'.
  pose proof (others_perm 0 ix iy (st_c p) x y Hixy Hx Hy) as Hperm. cbn [Nat.add] in Hperm.
  pose proof (Permutation_length Hperm) as Hl2. cbn [length] in Hl2.
  assert (Hperm' : forall Z, <[iy := Z]> (st_c p') ≡ₚ sr_new_source r :: Z :: others ix iy (st_c p)).
  { intros Z. rewrite HcC, list_insert_insert.
    pose proof (others_perm 0 ix iy (<[iy:=Z]> (<[ix:=sr_new_source r]> (st_c p))) (sr_new_source r) Z Hixy) as Hpm. cbn [Nat.add] in Hpm.
    rewrite Hpm at 1.
    - f_equiv. f_equiv. unfold others.
      pose proof (others_insert 0 ix iy iy (<[ix:=sr_new_source r]> (st_c p)) Z) as E1. rewrite Nat.sub_0_r in E1.
      rewrite E1 by (auto; lia).
      pose proof (others_insert 0 ix iy ix (st_c p) (sr_new_source r)) as E2. rewrite Nat.sub_0_r in E2.
      rewrite E2 by (auto; lia). done.
    - rewrite list_lookup_insert_ne, list_lookup_insert by auto. done.
    - rewrite list_lookup_insert; [done|]. now rewrite insert_length. }
  destruct (N.le_gt_cases 1 fl) as [Hfl1|Hfl0].
  - eapply (curve_below A D (sr_new_source r) (others ix iy (st_c p)) fl); [exact HA0|now rewrite Hns|exact HF| | |apply Hperm'].
    + replace (N.of_nat (2 + length (others ix iy (st_c p)))) with (N.of_nat (length (st_c p))).
      2:{ f_equal. unfold others. clear - Hl2. lia. }
      rewrite Hns. exact Hfl.
    + clear - Hyf Hfl1 Hyn. lia.
  - assert (E0 : y - (y - yn - 1) - 3 = 0) by (clear - Hyf Hfl0 Hyn; lia). rewrite E0.
    unfold at_least_D. cbv zeta. rewrite (product_perm _ _ (Hperm' 0)). cbn [product foldr].
    rewrite !N.mul_0_l, !N.mul_0_r. apply N.le_0_l.
Qed.
