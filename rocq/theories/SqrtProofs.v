(** * Correctness of [integer_sqrt] *)
From Verif Require Import Base BaseLemmas Sqrt.

(** Inside the loop ([0 < guess < res <= v]) nothing can overflow or divide by zero. *)
Lemma sqrt_body_safe v g : 0 < g -> g <= v -> v / g + g <= v + 1.
Proof.
  intros Hg Hv. pose proof (div_mul_le v g Hg). assert (1 <= v / g) by (apply div_le_iff; lia).
  nia.
Qed.

(** AM-GM: the Newton step never goes below the root. *)
Lemma newton_ge v g s : 0 < g -> s * s <= v -> s <= (v / g + g) / 2.
Proof.
  intros Hg Hs.
  apply div_le_iff; [lia|].
  destruct (N.le_gt_cases (s * 2) g) as [H|H].
  { generalize (v / g); intros; lia. }
  assert (s * 2 - g <= v / g); [|lia].
  apply div_le_iff; [done|].
  assert ((s * 2 - g) * g <= s * s); [|lia].
  remember (s * 2 - g) as d. assert (d + g = 2 * s) by lia.
  assert (4 * (d * g) <= (d + g) * (d + g)); [|nia].
  clear. zify. pose proof (Z.square_nonneg (Z.of_N d - Z.of_N g)). lia.
Qed.

(** When the loop stops ([guess >= res]) the result is the floor square root. *)
Lemma sqrt_stop v g r :
  (r = v /\ g = (v + 1) / 2) \/ (g = (v / r + r) / 2 /\ 0 < r) ->
  r <= g -> r * r <= v.
Proof.
  intros [[-> ->]|[-> Hr]] Hle.
  - apply div_le_iff in Hle; [|lia]. assert (v <= 1) by lia. nia.
  - apply div_le_iff in Hle; [|lia].
    assert (r <= v / r) by lia.
    apply div_le_iff in H; auto.
Qed.

Definition sinv (v : N) (st : N * N) : Prop :=
  let '(g, r) := st in
  (forall s, s * s <= v -> s <= g /\ s <= r) /\ r <= v /\
  ((r = v /\ g = (v + 1) / 2) \/ (g = (v / r + r) / 2 /\ 0 < r)).

Lemma sinv_init v : sinv v ((v + 1) / 2, v).
Proof.
  split; [|auto using N.le_refl]. intros s Hs. split; [|nia].
  apply div_le_iff; [lia|]. nia.
Qed.

Lemma sinv_body v st : sinv v st -> fst st < snd st -> sinv v (sqrt_body v st).
Proof.
  destruct st as [g r]; cbn [fst snd sqrt_body]. intros (H1 & Hr & H2) Hlt.
  assert (Hg : 0 < g).
  { destruct (N.eq_dec g 0) as [->|]; [|lia].
    assert (v <> 0).
    { intros ->. lia. }
    specialize (H1 1). lia. }
  split; [|split; [lia|right; auto]].
  intros s Hs. split; [now apply newton_ge|]. now apply H1.
Qed.

Lemma sqrt_body_dec v st : snd (sqrt_body v st) = fst st.
Proof. now destruct st. Qed.

Lemma sqrt_loop_inv k v st : sinv v st -> sinv v (sqrt_loop k v st).
Proof.
  revert st; induction k as [|k IH]; intros st Hst; cbn [sqrt_loop];
    destruct (N.ltb_spec (fst st) (snd st)); auto.
  now apply sinv_body.
Qed.

(** Either the loop stopped by itself, or [2^k] iterations lowered [res] by at least [2^k]. *)
Lemma sqrt_loop_progress k v st :
  snd (sqrt_loop k v st) <= fst (sqrt_loop k v st) \/
  snd (sqrt_loop k v st) + 2 ^ N.of_nat k <= snd st.
Proof.
  revert st; induction k as [|k IH]; intros st; cbn [sqrt_loop];
    destruct (N.ltb_spec (fst st) (snd st)) as [Hlt|Hge]; auto.
  - right. rewrite sqrt_body_dec. change (2 ^ N.of_nat 0) with 1. lia.
  - set (st1 := sqrt_loop k v st).
    destruct (IH st) as [H|H]; fold st1 in H.
    + left. destruct k; cbn [sqrt_loop]; destruct (N.ltb_spec (fst st1) (snd st1)); try lia.
    + destruct (IH st1) as [H'|H']; [left; done|right].
      rewrite Nat2N.inj_succ, N.pow_succ_r'. lia.
Qed.

Lemma size_nat_gt v : v < 2 ^ N.of_nat (N.size_nat v).
Proof.
  destruct v as [|p]; [reflexivity|].
  pose proof (N.size_gt (Npos p)) as H.
  assert (N.size (Npos p) = N.of_nat (N.size_nat (Npos p))) as E; [|rewrite <- E; exact H].
  cbn. clear. induction p as [p IH|p IH|]; cbn [Pos.size Pos.size_nat]; [| |reflexivity];
    rewrite Nat2N.inj_succ, <- IH; reflexivity.
Qed.

(** The [while] loop always terminates: the state reached does not satisfy the loop guard. *)
Lemma integer_sqrt_terminates v :
  let st := sqrt_loop (N.size_nat v) v ((v + 1) / 2, v) in snd st <= fst st.
Proof.
  intros st. destruct (sqrt_loop_progress (N.size_nat v) v ((v + 1) / 2, v)) as [H|H]; [exact H|].
  cbn [snd] in H. pose proof (size_nat_gt v). lia.
Qed.

Lemma integer_sqrt_spec v r : integer_sqrt v = Some r -> r * r <= v < (r + 1) * (r + 1).
Proof.
  unfold integer_sqrt; intros H; inv; subst.
  pose proof (integer_sqrt_terminates v) as Ht. cbn zeta in Ht.
  pose proof (sqrt_loop_inv (N.size_nat v) v _ (sinv_init v)) as Hi.
  destruct (sqrt_loop (N.size_nat v) v ((v + 1) / 2, v)) as [g r]; cbn [fst snd] in *.
  destruct Hi as (HA & _ & HB). split; [eapply sqrt_stop; eauto|].
  apply N.lt_nge. intros Hle. apply HA in Hle. lia.
Qed.

Lemma integer_sqrt_N v r : integer_sqrt v = Some r -> r = N.sqrt v.
Proof.
  intros H; apply integer_sqrt_spec in H. symmetry. apply N.sqrt_unique.
  rewrite <- N.add_1_r. done.
Qed.

Lemma integer_sqrt_total v : v + 1 < W256 -> integer_sqrt v = Some (N.sqrt v).
Proof.
  intros Hv. destruct (integer_sqrt v) as [r|] eqn:E; [now rewrite (integer_sqrt_N _ _ E)|].
  unfold integer_sqrt in E. rewrite cadd_intro in E by done. discriminate.
Qed.

Lemma u128_mul_lt a b : a < W128 -> b < W128 -> a * b + 1 < W256.
Proof.
  intros Ha Hb. assert (W256 = W128 * W128) as -> by (vm_compute; reflexivity).
  assert (2 < W128) by (vm_compute; reflexivity). nia.
Qed.
