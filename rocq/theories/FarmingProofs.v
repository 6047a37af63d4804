(** * What the functions of simple_farm.rs and farmer.rs compute *)
From Verif Require Import Base BaseLemmas Farming SpecFarming.

Lemma DENOM_pos : 0 < DENOM. Proof. vm_compute; reflexivity. Qed.
Lemma W32_pos : 0 < W32. Proof. vm_compute; reflexivity. Qed.
Global Opaque DENOM BYTE_COST MIN_SEED_DEPOSIT min_storage_usage.

Lemma to_sec_lt now : to_sec now < W32.
Proof. unfold to_sec. apply N.mod_lt. pose proof W32_pos. lia. Qed.
Lemma to_sec_le now : to_sec now <= now / 10 ^ 9.
Proof. unfold to_sec. apply N.mod_le. pose proof W32_pos. lia. Qed.

Lemma reward_round_Some f rr0 added rr :
  reward_round f rr0 = Some (added, rr) -> rr0 < W32 ->
  d_rr (f_dist f) <= rr /\ rr <= rr0 /\
  added <= (rr - d_rr (f_dist f)) * t_rps (f_terms f) /\ added <= d_undist (f_dist f) /\
  (rr = d_rr (f_dist f) -> added = 0) /\
  (rr < rr0 -> added = d_undist (f_dist f)).
Proof.
  unfold reward_round. intros H Hrr. inv. subst.
  set (R := t_rps (f_terms f)) in *. set (U := d_undist (f_dist f)) in *.
  set (r := d_rr (f_dist f)) in *.
  destruct (N.ltb_spec U ((rr0 - r) * R)) as [HU|HU].
  - inv. subst.
    assert (HR : 0 < R) by lia.
    pose proof (div_mul_le U R HR) as Hq1. pose proof (lt_div_succ U R HR) as Hq2.
    set (q := U / R) in *. clearbody q R U r.
    assert (q < rr0 - r) by nia.
    assert (Hm : q mod W32 = q) by (apply N.mod_small; lia).
    rewrite Hm in *.
    destruct (N.ltb_spec (q * R) U) as [Hc|Hc]; inv; subst; split_and!; try lia; try nia.
  - inv. subst. clearbody R U r. split_and!; try lia.
Qed.

Lemma try_distribute_Some now f S od :
  try_distribute now f S = Some od ->
  match od with
  | None => f_status f <> Running \/ now < to_nano (t_start (f_terms f))
  | Some dis =>
      f_status f = Running /\ to_nano (t_start (f_terms f)) <= now /\
      exists added,
        d_undist dis + added = d_undist (f_dist f) /\
        d_unclaimed dis = d_unclaimed (f_dist f) + added /\
        d_rr (f_dist f) <= d_rr dis /\
        added <= (d_rr dis - d_rr (f_dist f)) * t_rps (f_terms f) /\
        d_rr dis <= sessions now (f_terms f) /\
        (d_rr dis = d_rr (f_dist f) -> added = 0) /\
        (if S =? 0 then d_rps dis = 0 else d_rps dis = d_rps (f_dist f) + added * DENOM / S)
  end.
Proof.
  unfold try_distribute. destruct (f_status f) eqn:Hst; intros H; inv; subst; try (left; congruence).
  destruct (N.ltb_spec now (to_nano (t_start (f_terms f)))) as [Ht|Ht]; inv; subst.
  - right. done.
  - split; [done|]. split; [done|].
    pose proof (to_sec_lt now). pose proof (to_sec_le now).
    assert (Hel : (to_sec now - t_start (f_terms f)) / t_interval (f_terms f) <= to_sec now - t_start (f_terms f)).
    { apply N.div_le_upper_bound; [lia|]. nia. }
    match goal with H : reward_round _ _ = Some (?a, ?r) |- _ =>
      apply reward_round_Some in H as (Q1 & Q2 & Q3 & Q4 & Q5 & _); [|lia]; exists a end.
    cbn [d_undist d_unclaimed d_rps d_rr]. split_and!; try lia; auto.
    + unfold sessions. etransitivity; [exact Q2|]. apply N.div_le_mono; lia.
    + destruct (S =? 0); inv; subst; [done|]. reflexivity.
Qed.

(** distribute, in terms of the released amount *)
Lemma distribute_Some now f S f1 :
  distribute now f S = Some f1 ->
  f_terms f1 = f_terms f /\ f_reward f1 = f_reward f /\
  (f_status f1 = f_status f \/ f_status f = Running /\ f_status f1 = Ended /\ d_undist (f_dist f1) = 0) /\
  exists added,
    d_undist (f_dist f1) + added = d_undist (f_dist f) /\
    d_rr (f_dist f) <= d_rr (f_dist f1) /\
    added <= (d_rr (f_dist f1) - d_rr (f_dist f)) * t_rps (f_terms f) /\
    (d_rr (f_dist f1) = d_rr (f_dist f) \/ d_rr (f_dist f1) <= sessions now (f_terms f)) /\
    (f_status f <> Running -> f1 = f) /\
    ( (* nobody is paid by default *)
      d_unclaimed (f_dist f1) = d_unclaimed (f_dist f) + added /\ f_claimed f1 = f_claimed f /\
      f_benef f1 = f_benef f /\
      (added = 0 /\ d_rps (f_dist f1) = d_rps (f_dist f) \/
       0 < S /\ d_rps (f_dist f1) = d_rps (f_dist f) + added * DENOM / S)
    \/ (* no stake: everything unclaimed goes to the beneficiary *)
      S = 0 /\ d_unclaimed (f_dist f1) = 0 /\ d_rps (f_dist f1) = 0 /\
      f_claimed f1 = f_claimed f + d_unclaimed (f_dist f) + added /\
      f_benef f1 = f_benef f + d_unclaimed (f_dist f) + added).
Proof.
  unfold distribute. intros H. inv.
  match goal with H : try_distribute _ _ _ = Some ?od |- _ => apply try_distribute_Some in H; destruct od as [dis|] end.
  2:{ inv; subst. split_and!; auto. exists 0. split_and!; auto; try lia. }
  match goal with H : f_status _ = _ /\ _ |- _ => destruct H as (Hst & Hts & added & H1 & H2 & H3 & H4 & H5 & H6 & H7) end.
  inv. destruct (N.eqb_spec (d_rr (f_dist f)) (d_rr dis)) as [Hr|Hr]; inv; subst.
  - match goal with |- context [if ?b then _ else _] => destruct b eqn:Hz end; bool_inv;
      cbn [f_set_status f_terms f_reward f_status f_dist f_claimed f_benef]; split_and!; auto;
      exists 0; split_and!; try done; try lia.
    all: left; split_and!; auto; lia.
  - destruct (N.eqb_spec S 0) as [HS|HS]; inv; subst;
      match goal with |- context [if ?b then _ else _] => destruct b eqn:Hz end; bool_inv;
      cbn [f_set_status f_set_benef f_set_claimed f_set_dist d_set_unclaimed f_terms f_reward f_status f_dist f_claimed f_benef d_undist d_unclaimed d_rps d_rr] in *;
      split_and!; auto; exists added; split_and!; try done; try lia; auto.
    all: try (right; split_and!; auto; lia).
    all: left; split_and!; auto; right; split; auto; lia.
Qed.

Lemma reward_of_Some s rps ru am :
  reward_of s rps ru = Some am -> ru <= rps /\ am = s * (rps - ru) / DENOM /\ am < W128.
Proof. unfold reward_of. intros H. inv. subst. auto. Qed.

Lemma claim_user_reward_Some now f ru s S f2 rps' am :
  claim_user_reward now f ru s S = Some (f2, rps', am) ->
  exists f1, distribute now f S = Some f1 /\
    ru <= d_rps (f_dist f1) /\ am = s * (d_rps (f_dist f1) - ru) / DENOM /\
    am <= d_unclaimed (f_dist f1) /\ rps' = d_rps (f_dist f1) /\
    f2 = mkFarm (f_terms f1) (f_status f1)
           (mkDist (d_undist (f_dist f1)) (d_unclaimed (f_dist f1) - am) (d_rps (f_dist f1)) (d_rr (f_dist f1)))
           (f_reward f1) (f_claimed f1 + am) (f_benef f1).
Proof.
  unfold claim_user_reward. intros H. inv.
  match goal with H : reward_of _ _ _ = _ |- _ => apply reward_of_Some in H as (? & ? & ?) end.
  subst. eexists; split; [eassumption|]. split; [done|]. split; [done|].
  destruct (N.ltb_spec 0 (s * (d_rps (f_dist x) - ru) / DENOM)) as [Hc|Hc]; inv; subst.
  - cbn. split_and!; auto.
  - revert Hc. match goal with |- ?q <= 0 -> _ => generalize q end. intros q Hc.
    assert (q = 0) by lia. subst. rewrite N.sub_0_r, N.add_0_r. split_and!; auto; try lia.
    now destruct f2 as [? ? [] ? ? ?].
Qed.

(** ** farm-level invariant *)
Definition farm_wf (now : N) (f : Farm) : Prop :=
  f_reward f = d_undist (f_dist f) + d_unclaimed (f_dist f) + f_claimed f /\
  f_benef f <= f_claimed f /\
  d_unclaimed (f_dist f) + f_claimed f <= d_rr (f_dist f) * t_rps (f_terms f) /\
  d_rr (f_dist f) <= sessions now (f_terms f) /\
  (f_status f = Created -> d_rr (f_dist f) = 0 /\ d_rps (f_dist f) = 0 /\ f_reward f = 0) /\
  (f_status f = Ended \/ f_status f = Cleared -> d_undist (f_dist f) = 0) /\
  (f_status f = Cleared -> d_unclaimed (f_dist f) = 0).

Lemma sessions_mono now now' t : now <= now' -> sessions now t <= sessions now' t.
Proof.
  intros H. unfold sessions. destruct (N.eq_dec (t_interval t) 0) as [->|Hi].
  - now destruct (now / 10 ^ 9 - t_start t), (now' / 10 ^ 9 - t_start t).
  - apply N.div_le_mono; [done|]. apply N.sub_le_mono_r. apply N.div_le_mono; lia.
Qed.

Lemma farm_wf_mono now now' f : now <= now' -> farm_wf now f -> farm_wf now' f.
Proof.
  intros Hn (H1 & H2 & H3 & H4 & H5 & H6 & H7). split_and!; auto.
  etransitivity; [exact H4|]. now apply sessions_mono.
Qed.

Lemma farm_wf_new now t : farm_wf now (farm_new t).
Proof. unfold farm_wf, farm_new; cbn. split_and!; auto; try lia. all: destruct 1; discriminate. Qed.

Lemma farm_wf_distribute now f S f1 : farm_wf now f -> distribute now f S = Some f1 -> farm_wf now f1.
Proof.
  intros (H1 & H2 & H3 & H4 & H5 & H6 & H7) H.
  apply distribute_Some in H as (Ht & Hr & Hs & added & A1 & A2 & A3 & A4 & A5 & A6).
  unfold farm_wf. rewrite Ht, Hr.
  assert (Hprod : d_rr (f_dist f) * t_rps (f_terms f) + (d_rr (f_dist f1) - d_rr (f_dist f)) * t_rps (f_terms f)
                  = d_rr (f_dist f1) * t_rps (f_terms f)) by nia.
  assert (Hrr : d_rr (f_dist f1) <= sessions now (f_terms f)) by (destruct A4 as [->|A4]; auto).
  assert (Hcr : f_status f1 = Created -> f1 = f).
  { intros E. apply A5. destruct Hs as [Hs|(_ & Hs & _)]; congruence. }
  split_and!; auto.
  - destruct A6 as [(B1 & B2 & _)|(_ & B1 & _ & B2 & _)]; lia.
  - destruct A6 as [(B1 & B2 & B3 & _)|(_ & B1 & _ & B2 & B3)]; lia.
  - destruct A6 as [(B1 & B2 & B3 & _)|(_ & B1 & _ & B2 & B3)]; lia.
  - intros E. specialize (Hcr E). subst. auto.
  - intros E. destruct Hs as [Hs|(_ & _ & Hs)]; [|done]. rewrite Hs in E.
    rewrite A5; auto. destruct E as [E|E]; rewrite E; discriminate.
  - intros E. assert (f1 = f) as ->; [|auto]. apply A5.
    destruct Hs as [Hs|(_ & Hs & _)]; congruence.
Qed.

Lemma farm_wf_claim now f ru s S f2 rps' am :
  farm_wf now f -> claim_user_reward now f ru s S = Some (f2, rps', am) -> farm_wf now f2.
Proof.
  intros Hwf H. apply claim_user_reward_Some in H as (f1 & Hd & _ & Ham & Hle & _ & ->).
  apply (farm_wf_distribute now f S f1 Hwf) in Hd as (H1 & H2 & H3 & H4 & H5 & H6 & H7).
  unfold farm_wf; cbn. clear Ham. split_and!; auto; try lia.
Qed.

Lemma farm_add_reward_Some now f am of :
  farm_add_reward now f am = Some (Some of) ->
  (f_status f = Created \/ f_status f = Running) /\ f_status of = Running /\
  (f_terms of = f_terms f \/
   f_status f = Created /\ t_start (f_terms f) = 0 /\ f_terms of = t_set_start (f_terms f) (to_sec now)) /\
  f_reward of = f_reward f + am /\
  f_dist of = d_set_undist (f_dist f) (d_undist (f_dist f) + am) /\
  f_claimed of = f_claimed f /\ f_benef of = f_benef f.
Proof.
  unfold farm_add_reward. intros H. destruct (f_status f) eqn:Hst; inv; subst; try discriminate.
  - destruct (N.eqb_spec (t_start (f_terms f)) 0) as [Hz|Hz]; cbn; split_and!; auto.
  - match type of H with (if ?b then _ else _) = _ => destruct b; inv; try discriminate end.
    subst. cbn. split_and!; auto.
Qed.

Lemma farm_wf_add_reward now f am f' :
  farm_wf now f -> farm_add_reward now f am = Some (Some f') -> farm_wf now f'.
Proof.
  intros (H1 & H2 & H3 & H4 & H5 & H6 & H7) H.
  apply farm_add_reward_Some in H as (Hs & Hs' & Ht & Hr & Hd & Hc & Hb).
  unfold farm_wf. rewrite Hr, Hd, Hc, Hb, Hs'. cbn [d_set_undist d_undist d_unclaimed d_rr d_rps].
  split_and!; try done; try lia.
  - destruct Ht as [->|(_ & _ & ->)]; [done|]. cbn. lia.
  - destruct Ht as [->|(Hcr & _ & ->)]; [done|]. destruct (H5 Hcr) as (-> & _). lia.
  - destruct 1; discriminate.
Qed.

Lemma move_to_clear_Some now f S f' :
  farm_wf now f -> move_to_clear now f S = Some f' ->
  f_status f <> Created -> f_status f <> Cleared ->
  (f_status f = Ended \/ exists od, try_distribute now f S = Some (Some od) /\ d_undist od = 0) ->
  farm_wf now f' /\ f_status f' = Cleared /\ f_terms f' = f_terms f /\ f_reward f' = f_reward f /\
  d_undist (f_dist f') + d_unclaimed (f_dist f') + f_benef f'
    = d_undist (f_dist f) + d_unclaimed (f_dist f) + f_benef f.
Proof.
  intros Hwf H Hnc Hncl Hend. unfold move_to_clear in H. inv.
  assert (Hf1 : distribute now f S = Some x /\ f_status x = Ended \/ x = f /\ f_status f = Ended).
  { destruct (f_status f) eqn:E; try congruence.
    - left. split; [done|]. destruct Hend as [Hend|(od & Hod & Hz)]; [congruence|].
      unfold distribute in Hx. rewrite Hod in Hx. cbn [mbind option_bind] in Hx. inv.
      assert (Hu : d_undist (f_dist x0) = 0).
      { destruct (N.eqb_spec (d_rr (f_dist f)) (d_rr od)) as [Hr|Hr]; inv; subst.
        - apply try_distribute_Some in Hod as (_ & _ & added & B1 & _ & _ & _ & _ & B2 & _).
          rewrite <- Hr in B2. specialize (B2 eq_refl). lia.
        - destruct (S =? 0); inv; subst; cbn; done. }
      subst. rewrite Hu. cbn. done.
    - right. inv. subst. done. }
  assert (Hx' : farm_wf now x /\ f_status x = Ended /\ f_terms x = f_terms f /\ f_reward x = f_reward f /\
    d_undist (f_dist x) + d_unclaimed (f_dist x) + f_benef x
    = d_undist (f_dist f) + d_unclaimed (f_dist f) + f_benef f).
  { destruct Hf1 as [(Hd & He)|(-> & He)]; [|auto].
    pose proof (farm_wf_distribute _ _ _ _ Hwf Hd) as Hwx.
    apply distribute_Some in Hd as (Ht & Hr & Hs & added & A1 & A2 & A3 & A4 & A5 & A6).
    split_and!; auto. destruct A6 as [(B1 & B2 & B3 & _)|(_ & B1 & _ & B2 & B3)]; lia. }
  clear Hf1. destruct Hx' as ((H1 & H2 & H3 & H4 & H5 & H6 & H7) & He & Ht & Hr & Hsum).
  rewrite He in H. inv. subst f'. cbn [f_set_status f_status f_terms f_reward f_dist f_benef].
  rewrite He in *. specialize (H6 (or_introl eq_refl)).
  destruct (N.ltb_spec 0 (d_unclaimed (f_dist x))) as [Hu|Hu]; inv; subst.
  - cbn [f_set_benef f_set_claimed f_set_dist d_set_unclaimed f_status f_terms f_reward f_dist f_benef f_claimed d_undist d_unclaimed d_rps d_rr].
    unfold farm_wf; cbn [f_set_status f_set_benef f_set_claimed f_set_dist d_set_unclaimed f_status f_terms f_reward f_dist f_benef f_claimed d_undist d_unclaimed d_rps d_rr].
    split_and!; auto; try done; lia.
  - unfold farm_wf; cbn [f_set_status f_set_benef f_set_claimed f_set_dist d_set_unclaimed f_status f_terms f_reward f_dist f_benef f_claimed d_undist d_unclaimed d_rps d_rr].
    split_and!; auto; try done; lia.
Qed.
