(** * Size and order of trades on simple pools: C77, C78. *)
From Verif Require Import Base BaseLemmas SimplePool SpecSimple SpecTrade SimplePoolProofs SimplePoolInv SimpleFacts PropSimple.

Lemma swap_fee p ti a to mn f v p' out : sp_swap p ti a to mn f v = Some (p', out) -> sp_fee p' = sp_fee p /\ sp_fee p <= FEE_DIVISOR.
Proof.
  intros H. apply sp_swap_inv in H as (_ & _ & i & j & x & y & _ & _ & Hij & _ & _ & _ & _ & _ & Hf & _ & H).
  apply sp_update_inv in H as (x' & y' & r & e & _ & _ & _ & _ & -> & _); [|done]. split; done.
Qed.
Lemma swap_by_output_fee p ti b to mx f v p' a : sp_swap_by_output p ti b to mx f v = Some (p', a) -> sp_fee p' = sp_fee p /\ sp_fee p < FEE_DIVISOR.
Proof.
  intros H. apply sp_swap_by_output_inv in H as (_ & _ & i & j & x & y & _ & _ & Hij & _ & _ & _ & _ & _ & _ & Hf & _ & H).
  apply sp_update_inv in H as (x' & y' & r & e & _ & _ & _ & _ & -> & _); [|done]. split; done.
Qed.

(** ** Arithmetic; [u] is the fee divisor times a reserve, [v] what counts of the input *)
Lemma keep_in u v y : 0 < u -> u * y <= (y - v * y / (u + v)) * (u + v).
Proof.
  intros Hu. assert (Hd : 0 < u + v) by lia. pose proof (div_mul_le (v * y) _ Hd) as Hq. set (q := v * y / (u + v)) in *. clearbody q.
  assert (q <= y) by nia. nia.
Qed.
Lemma keep_out x y b g : 0 < g -> b < y -> FEE_DIVISOR * x * y < (y - b) * (FEE_DIVISOR * x + (x * b * FEE_DIVISOR / ((y - b) * g) + 1) * g).
Proof.
  intros Hg Hb. assert (Hd : 0 < (y - b) * g) by nia. pose proof (lt_div_succ (x * b * FEE_DIVISOR) _ Hd) as Hq.
  set (q := x * b * FEE_DIVISOR / ((y - b) * g)) in *. clearbody q. set (z := y - b) in *. replace y with (z + b) by lia. clearbody z.
  generalize dependent FEE_DIVISOR. intros D Hq. nia.
Qed.
(** two trades in a row *)
Lemma keep_trans P Q u y1 z K : 0 < Q -> P <= Q -> K <= y1 * P -> Q * y1 <= z * (Q + u) -> K <= z * (P + u).
Proof.
  intros HQ HP H1 H2. apply (N.mul_le_mono_pos_r _ _ Q); [done|].
  transitivity (y1 * P * Q); [nia|]. transitivity (z * (Q + u) * P); [nia|].
  replace (z * (Q + u) * P) with (z * (P * Q) + z * (u * P)) by ring. replace (z * (P + u) * Q) with (z * (P * Q) + z * (u * Q)) by ring. nia.
Qed.

Lemma keep_trans_lt P Q u y1 z K : 0 < P -> P <= Q -> K <= y1 * P -> Q * y1 < z * (Q + u) -> K < z * (P + u).
Proof.
  intros HP0 HP H1 H2. assert (HQ : 0 < Q) by lia. apply (N.mul_lt_mono_pos_r Q); [done|].
  apply (N.le_lt_trans _ (y1 * P * Q)); [nia|]. apply (N.lt_le_trans _ (z * (Q + u) * P)); [nia|].
  replace (z * (Q + u) * P) with (z * (P * Q) + z * (u * P)) by ring. replace (z * (P + u) * Q) with (z * (P * Q) + z * (u * Q)) by ring. nia.
Qed.

Lemma sold_curve ti to p p' a b :
  sold ti to p p' a b -> sp_wf p -> sp_fee p <= FEE_DIVISOR ->
  b <= sp_reserve p to /\ FEE_DIVISOR * sp_reserve p ti * sp_reserve p to <=
    (sp_reserve p to - b) * (FEE_DIVISOR * sp_reserve p ti + a * (FEE_DIVISOR - sp_fee p)).
Proof.
  induction 1 as [p|p a mn f p1 b p2 a' b' H _ IH|p b mx f p1 a p2 a' b' H _ IH]; intros Hwf Hf.
  - split; lia.
  - pose proof (swap_fee _ _ _ _ _ _ _ _ _ H) as [Ef _]. pose proof (sp_wf_swap _ _ _ _ _ _ _ _ Hwf H) as Hwf1.
    destruct (swap_reserves _ _ _ _ _ _ _ _ _ Hwf H) as (_ & _ & _ & E1 & E2 & Hx & Hlt & _ & Eo & _).
    rewrite Ef, E1, E2 in IH. destruct (IH Hwf1 Hf) as [Hle IHc]. split; [lia|].
    set (D := FEE_DIVISOR) in *. set (g := D - sp_fee p) in *.
    pose proof (keep_in (D * sp_reserve p ti) (a * g) (sp_reserve p to)) as Hk. rewrite <- Eo in Hk.
    replace ((a + a') * g) with (a * g + a' * g) by ring. rewrite N.add_assoc. replace (sp_reserve p to - (b + b')) with (sp_reserve p to - b - b') by lia.
    eapply (keep_trans _ (D * (sp_reserve p ti + a))); [unfold D, FEE_DIVISOR; lia| |apply Hk; unfold D, FEE_DIVISOR; lia|exact IHc].
    rewrite N.mul_add_distr_l. apply N.add_le_mono_l. rewrite (N.mul_comm a). apply N.mul_le_mono_r. unfold g. lia.
  - pose proof (swap_by_output_fee _ _ _ _ _ _ _ _ _ H) as [Ef Hfl]. pose proof (sp_wf_swap_by_output _ _ _ _ _ _ _ _ Hwf H) as Hwf1.
    destruct (swap_by_output_reserves _ _ _ _ _ _ _ _ _ Hwf H) as (_ & _ & _ & E1 & E2 & Hx & Hlt & _ & Eo & _).
    rewrite Ef, E1, E2 in IH. destruct (IH Hwf1 Hf) as [Hle IHc]. split; [lia|].
    set (D := FEE_DIVISOR) in *. set (g := D - sp_fee p) in *.
    pose proof (keep_out (sp_reserve p ti) (sp_reserve p to) b g) as Hk. fold D in Hk. rewrite <- Eo in Hk.
    replace ((a + a') * g) with (a * g + a' * g) by ring. rewrite N.add_assoc. replace (sp_reserve p to - (b + b')) with (sp_reserve p to - b - b') by lia.
    eapply (keep_trans _ (D * (sp_reserve p ti + a))); [unfold D, FEE_DIVISOR; lia| |apply N.lt_le_incl, Hk; unfold g; lia|exact IHc].
    rewrite N.mul_add_distr_l. apply N.add_le_mono_l. rewrite (N.mul_comm a). apply N.mul_le_mono_r. unfold g. lia.
Qed.

Lemma bought_curve ti to p p' a b :
  bought ti to p p' a b -> sp_wf p ->
  b < sp_reserve p to /\ FEE_DIVISOR * sp_reserve p ti * sp_reserve p to <
    (sp_reserve p to - b) * (FEE_DIVISOR * sp_reserve p ti + a * (FEE_DIVISOR - sp_fee p)).
Proof.
  induction 1 as [p b mx f p1 a H|p b mx f p1 a p2 a' b' H _ IH]; intros Hwf.
  - pose proof (swap_by_output_fee _ _ _ _ _ _ _ _ _ H) as [Ef Hfl].
    destruct (swap_by_output_reserves _ _ _ _ _ _ _ _ _ Hwf H) as (_ & _ & _ & E1 & E2 & Hx & Hlt & _ & -> & _). split; [done|]. apply keep_out; lia.
  - pose proof (swap_by_output_fee _ _ _ _ _ _ _ _ _ H) as [Ef Hfl]. pose proof (sp_wf_swap_by_output _ _ _ _ _ _ _ _ Hwf H) as Hwf1.
    destruct (swap_by_output_reserves _ _ _ _ _ _ _ _ _ Hwf H) as (_ & _ & _ & E1 & E2 & Hx & Hlt & _ & Eo & _).
    rewrite Ef, E1, E2 in IH. destruct (IH Hwf1) as [Hle IHc]. split; [lia|].
    set (D := FEE_DIVISOR) in *. set (g := D - sp_fee p) in *.
    pose proof (keep_out (sp_reserve p ti) (sp_reserve p to) b g) as Hk. fold D in Hk. rewrite <- Eo in Hk.
    replace ((a + a') * g) with (a * g + a' * g) by ring. rewrite N.add_assoc. replace (sp_reserve p to - (b + b')) with (sp_reserve p to - b - b') by lia.
    eapply (keep_trans_lt _ (D * (sp_reserve p ti + a))); [unfold D, FEE_DIVISOR; lia| |apply N.lt_le_incl, Hk; unfold g; lia|exact IHc].
    rewrite N.mul_add_distr_l. apply N.add_le_mono_l. rewrite (N.mul_comm a). apply N.mul_le_mono_r. unfold g. lia.
Qed.

(** ** C77: splitting a trade never pays *)
Theorem C77_split_sale p ti to p' a b mn f v q out :
  sp_reachable p -> sold ti to p p' a b -> sp_swap p ti a to mn f v = Some (q, out) -> b <= out.
Proof.
  intros Hr Hs H. apply sp_reachable_wf in Hr. pose proof (swap_fee _ _ _ _ _ _ _ _ _ H) as [_ Hf].
  destruct (sold_curve _ _ _ _ _ _ Hs Hr Hf) as [Hle Hc].
  destruct (swap_reserves _ _ _ _ _ _ _ _ _ Hr H) as (_ & _ & _ & _ & _ & Hx & _ & _ & -> & _).
  set (u := FEE_DIVISOR * sp_reserve p ti) in *. set (g := a * (FEE_DIVISOR - sp_fee p)) in *.
  assert (Hu : 0 < u) by (unfold u, FEE_DIVISOR; lia). apply N.div_le_lower_bound; [lia|]. nia.
Qed.
Theorem C77_split_purchase p ti to p' a b mx f v q ain :
  sp_reachable p -> bought ti to p p' a b -> sp_swap_by_output p ti b to mx f v = Some (q, ain) -> ain <= a.
Proof.
  intros Hr Hs H. apply sp_reachable_wf in Hr. pose proof (swap_by_output_fee _ _ _ _ _ _ _ _ _ H) as [_ Hf].
  destruct (bought_curve _ _ _ _ _ _ Hs Hr) as [Hlt Hc].
  destruct (swap_by_output_reserves _ _ _ _ _ _ _ _ _ Hr H) as (_ & _ & _ & _ & _ & Hx & _ & _ & -> & _).
  set (x := sp_reserve p ti) in *. set (y := sp_reserve p to) in *. set (g := FEE_DIVISOR - sp_fee p) in *.
  assert (Hg : 0 < g) by (unfold g; lia). assert (x * b * FEE_DIVISOR / ((y - b) * g) < a); [|lia].
  apply N.div_lt_upper_bound; [nia|]. set (z := y - b) in *. replace y with (z + b) in Hc by lia. clearbody z.
  generalize dependent FEE_DIVISOR. intros D. intros. nia.
Qed.
Print Assumptions C77_split_sale.
Print Assumptions C77_split_purchase.

(** ** C78: size and order of trades *)
Lemma quote_mono D g x x' y y' a a' :
  0 < D * x -> 0 < D * x' -> x' <= x -> y <= y' -> a <= a' -> a * g * y / (D * x + a * g) <= a' * g * y' / (D * x' + a' * g).
Proof.
  intros Hx Hx' Hxx Hy Ha. apply N.div_le_lower_bound; [lia|].
  assert (Hd : 0 < D * x + a * g) by lia. pose proof (div_mul_le (a * g * y) _ Hd) as Hq.
  set (q := a * g * y / (D * x + a * g)) in *. clearbody q. set (u := D * x) in *. set (u' := D * x') in *.
  assert (Hu : u' <= u) by (unfold u, u'; nia). clearbody u u'. assert (q <= y).
  { destruct (N.le_gt_cases q y); [done|]. exfalso. nia. }
  assert (Hg : a * g <= a' * g) by nia. generalize dependent (a * g). intros s Hd Hq Hs. generalize dependent (a' * g). intros s' Hs.
  (* q (u + s) <= s y  ->  (u' + s') q <= s' y' *)
  assert (q * u <= s * (y - q)) by nia. assert (s * (y - q) <= s' * (y - q)) by nia. nia.
Qed.
Lemma charge_mono D g x x' y y' b b' :
  0 < g -> b' < y' -> x <= x' -> y' <= y -> b <= b' -> x * b * D / ((y - b) * g) <= x' * b' * D / ((y' - b') * g).
Proof.
  intros Hg Hb Hx Hy Hbb. transitivity (x' * b' * D / ((y - b) * g)).
  - apply N.div_le_mono; [nia|]. apply N.mul_le_mono_r. now apply N.mul_le_mono.
  - apply N.div_le_compat_l. split; [nia|]. apply N.mul_le_mono_r. lia.
Qed.

(** More in, no less out; more out, no less in. *)
Theorem C78_larger_sale p ti to a a' mn mn' f f' v v' q q' out out' :
  sp_reachable p -> a <= a' -> sp_swap p ti a to mn f v = Some (q, out) -> sp_swap p ti a' to mn' f' v' = Some (q', out') -> out <= out'.
Proof.
  intros Hr Ha H H'. apply sp_reachable_wf in Hr.
  destruct (swap_reserves _ _ _ _ _ _ _ _ _ Hr H) as (_ & _ & _ & _ & _ & Hx & _ & _ & -> & _).
  destruct (swap_reserves _ _ _ _ _ _ _ _ _ Hr H') as (_ & _ & _ & _ & _ & _ & _ & _ & -> & _).
  apply quote_mono; unfold FEE_DIVISOR; lia.
Qed.
Theorem C78_larger_purchase p ti to b b' mx mx' f f' v v' q q' ain ain' :
  sp_reachable p -> b <= b' -> sp_swap_by_output p ti b to mx f v = Some (q, ain) -> sp_swap_by_output p ti b' to mx' f' v' = Some (q', ain') -> ain <= ain'.
Proof.
  intros Hr Hb H H'. apply sp_reachable_wf in Hr. pose proof (swap_by_output_fee _ _ _ _ _ _ _ _ _ H) as [_ Hf].
  destruct (swap_by_output_reserves _ _ _ _ _ _ _ _ _ Hr H) as (_ & _ & _ & _ & _ & Hx & _ & _ & -> & _).
  destruct (swap_by_output_reserves _ _ _ _ _ _ _ _ _ Hr H') as (_ & _ & _ & _ & _ & _ & Hlt & _ & -> & _).
  apply N.add_le_mono_r. apply charge_mono; lia.
Qed.
(** The price of a larger sale is no better, up to one unit: [out' / a' < (out + 1) / a]. *)
Theorem C78_price_of_size p ti to a a' mn mn' f f' v v' q q' out out' :
  sp_reachable p -> a <= a' -> sp_swap p ti a to mn f v = Some (q, out) -> sp_swap p ti a' to mn' f' v' = Some (q', out') ->
  out' * a < (out + 1) * a'.
Proof.
  intros Hr Ha H H'. apply sp_reachable_wf in Hr.
  destruct (swap_reserves _ _ _ _ _ _ _ _ _ Hr H) as (_ & _ & Ha0 & _ & _ & Hx & Hy & _ & E & _).
  destruct (swap_reserves _ _ _ _ _ _ _ _ _ Hr H') as (_ & _ & _ & _ & _ & _ & _ & _ & E' & _).
  set (g := FEE_DIVISOR - sp_fee p) in *. set (u := FEE_DIVISOR * sp_reserve p ti) in *. set (y := sp_reserve p to) in *.
  assert (Hu : 0 < u) by (unfold u, FEE_DIVISOR; lia). clearbody u g y.
  assert (Hd : 0 < u + a * g) by lia. assert (Hd' : 0 < u + a' * g) by lia.
  pose proof (lt_div_succ (a * g * y) _ Hd) as L. rewrite <- E in L. pose proof (div_mul_le (a' * g * y) _ Hd') as L'. rewrite <- E' in L'. clear E E'.
  (* out' <= a' g y / (u + a' g), out + 1 > a g y / (u + a g) *)
  destruct (N.lt_ge_cases (out' * a) ((out + 1) * a')) as [|Hge]; [done|exfalso].
  assert (K1 : (out + 1) * a' * (u + a' * g) <= a * (a' * g * y)) by nia.
  assert (K2 : a' * ((out + 1) * (u + a' * g)) <= a' * (a * g * y)) by nia.
  assert (K3 : (out + 1) * (u + a' * g) <= a * g * y) by (apply (N.mul_le_mono_pos_l _ _ a'); lia).
  assert (a * g <= a' * g) by nia. nia.
Qed.

(** Trades of others in the same direction only make a trade worse, trades against it only better. *)
Lemma sold_reserves ti to p p' a b : sold ti to p p' a b -> sp_wf p ->
  sp_wf p' /\ sp_fee p' = sp_fee p /\ sp_reserve p ti <= sp_reserve p' ti /\ sp_reserve p' to <= sp_reserve p to.
Proof.
  induction 1 as [p|p a mn f p1 b p2 a' b' H _ IH|p b mx f p1 a p2 a' b' H _ IH]; intros Hwf; [done| |].
  - pose proof (swap_fee _ _ _ _ _ _ _ _ _ H) as [Ef _]. pose proof (sp_wf_swap _ _ _ _ _ _ _ _ Hwf H) as Hwf1.
    destruct (swap_reserves _ _ _ _ _ _ _ _ _ Hwf H) as (_ & _ & _ & E1 & E2 & _). destruct (IH Hwf1) as (I1 & I2 & I3 & I4).
    split; [done|]. split; [congruence|]. split; lia.
  - pose proof (swap_by_output_fee _ _ _ _ _ _ _ _ _ H) as [Ef _]. pose proof (sp_wf_swap_by_output _ _ _ _ _ _ _ _ Hwf H) as Hwf1.
    destruct (swap_by_output_reserves _ _ _ _ _ _ _ _ _ Hwf H) as (_ & _ & _ & E1 & E2 & _). destruct (IH Hwf1) as (I1 & I2 & I3 & I4).
    split; [done|]. split; [congruence|]. split; lia.
Qed.
Theorem C78_after_others p ti to p1 a0 b0 a mn mn' f f' v v' q q' out out' :
  sp_reachable p -> sold ti to p p1 a0 b0 -> sp_swap p ti a to mn f v = Some (q, out) -> sp_swap p1 ti a to mn' f' v' = Some (q', out') -> out' <= out.
Proof.
  intros Hr Hs H H'. apply sp_reachable_wf in Hr. destruct (sold_reserves _ _ _ _ _ _ Hs Hr) as (Hw & Ef & R1 & R2).
  destruct (swap_reserves _ _ _ _ _ _ _ _ _ Hr H) as (_ & _ & _ & _ & _ & Hx & _ & _ & -> & _).
  destruct (swap_reserves _ _ _ _ _ _ _ _ _ Hw H') as (_ & _ & _ & _ & _ & Hx' & _ & _ & -> & _). rewrite Ef.
  apply quote_mono; unfold FEE_DIVISOR; lia.
Qed.
Theorem C78_after_opposite p ti to p1 a0 b0 a mn mn' f f' v v' q q' out out' :
  sp_reachable p -> sold to ti p p1 a0 b0 -> sp_swap p ti a to mn f v = Some (q, out) -> sp_swap p1 ti a to mn' f' v' = Some (q', out') -> out <= out'.
Proof.
  intros Hr Hs H H'. apply sp_reachable_wf in Hr. destruct (sold_reserves _ _ _ _ _ _ Hs Hr) as (Hw & Ef & R1 & R2).
  destruct (swap_reserves _ _ _ _ _ _ _ _ _ Hr H) as (_ & _ & _ & _ & _ & Hx & _ & _ & -> & _).
  destruct (swap_reserves _ _ _ _ _ _ _ _ _ Hw H') as (_ & _ & _ & _ & _ & Hx' & _ & _ & -> & _). rewrite Ef.
  apply quote_mono; unfold FEE_DIVISOR; lia.
Qed.
Print Assumptions C78_larger_sale.
Print Assumptions C78_larger_purchase.
Print Assumptions C78_price_of_size.
Print Assumptions C78_after_others.
Print Assumptions C78_after_opposite.

(** ** Cases: one sale of 3000000 against three of 1000000, one purchase against two *)
Definition ex_tr (p : SimplePool) (ti : AccountId) (a : N) (to : AccountId) : option (SimplePool * N) := sp_swap p ti a to 0 ex_fees false.
Definition ex_buy (p : SimplePool) (ti : AccountId) (b : N) (to : AccountId) : option (SimplePool * N) := sp_swap_by_output p ti b to None ex_fees false.
Example C77_sale_case :
  (p ← ex_pool; r1 ← ex_tr p "A" 1000000 "B"; r2 ← ex_tr (fst r1) "A" 1000000 "B"; r3 ← ex_tr (fst r2) "A" 1000000 "B"; r ← ex_tr p "A" 3000000 "B";
   Some (snd r1, snd r2, snd r3, snd r1 + snd r2 + snd r3, snd r)) = Some (1848145, 1845610, 1843080, 5536835, 5536847).
Proof. vm_compute. reflexivity. Qed.
Example C77_purchase_case :
  (p ← ex_pool; r1 ← ex_buy p "A" 1000000 "B"; r2 ← ex_buy (fst r1) "A" 2000000 "B"; r ← ex_buy p "A" 3000000 "B";
   Some (snd r1, snd r2, snd r1 + snd r2, snd r)) = Some (540913, 1083032, 1623945, 1623943).
Proof. vm_compute. reflexivity. Qed.
(** The first of the three sales above gives more after a sale in the other direction. *)
Example C78_opposite_case :
  (p ← ex_pool; r1 ← ex_tr p "B" 100000000 "A"; r2 ← ex_tr (fst r1) "A" 1000000 "B"; Some (snd r1, snd r2)) = Some (51831084, 1987485).
Proof. vm_compute. reflexivity. Qed.
