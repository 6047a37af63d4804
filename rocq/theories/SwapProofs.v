(** * Chains of swaps as lists of trades *)
From Verif Require Import Base BaseLemmas SimplePool SimplePoolProofs SpecSimple SimplePoolInv StableMath StablePool
  SpecStable StablePoolProofs StablePoolInv Rates Echo Twap Account Pool Exchange SpecExchange AccountProofs PoolFacts
  ExchangeProofs ExchangeInv SpecSwap.

(** ** Volumes *)
Lemma vol_of_at c pid p i : default (0, 0) (ex_volumes_of c pid p !! i) = vol_at c (pid mod W32) i.
Proof.
  unfold ex_volumes_of, vol_at. destruct (ex_volumes c !! (pid mod W32)); [done|].
  destruct (repeat (0, 0) _ !! i) as [x|] eqn:E; [|done].
  apply elem_of_list_lookup_2, elem_of_list_In, repeat_spec in E. now subst.
Qed.
Lemma vol_update_spec v ii io a b v' i :
  vol_update v ii io a b = Some v' ->
  default (0, 0) (v' !! i) = (fst (default (0, 0) (v !! i)) + (if bool_decide (ii = i) then a else 0),
                              snd (default (0, 0) (v !! i)) + (if bool_decide (io = i) then b else 0)).
Proof.
  unfold vol_update. intros H. bnd H q Hq. destruct q as [x y]. bnd H x' Hx'. apply cadd_Some in Hx' as [-> _].
  bnd H q2 Hq2. destruct q2 as [x2 y2]. bnd H y' Hy'. apply cadd_Some in Hy' as [-> _]. injection H as <-.
  pose proof (lookup_lt_Some _ _ _ Hq) as L1. pose proof (lookup_lt_Some _ _ _ Hq2) as L2. rewrite insert_length in L2.
  destruct (decide (io = i)) as [<-|N2].
  - rewrite list_lookup_insert by now rewrite insert_length. rewrite (bool_decide_eq_true_2 (io = io)) by done.
    cbn [default from_option Datatypes.id].
    destruct (decide (ii = io)) as [<-|N1].
    + rewrite list_lookup_insert in Hq2 by done. injection Hq2 as <- <-. rewrite Hq, bool_decide_eq_true_2 by done. done.
    + rewrite list_lookup_insert_ne in Hq2 by done. rewrite Hq2, bool_decide_eq_false_2 by done. cbn [default from_option Datatypes.id fst snd].
      now rewrite N.add_0_r.
  - rewrite list_lookup_insert_ne by done. rewrite (bool_decide_eq_false_2 (io = i)) by done. rewrite N.add_0_r.
    destruct (decide (ii = i)) as [<-|N1].
    + rewrite list_lookup_insert by done. rewrite Hq, bool_decide_eq_true_2 by done. done.
    + rewrite list_lookup_insert_ne by done. rewrite bool_decide_eq_false_2 by done. rewrite N.add_0_r. now destruct (default (0, 0) (v !! i)).
Qed.
Lemma vol_at_put c tw pid v p' key i :
  vol_at (ex_put_pool (ex_put_volumes (ex_set_twap c tw) pid v) pid p') key i =
  if pid mod W32 =? key then default (0, 0) (v !! i) else vol_at c key i.
Proof.
  unfold vol_at. ex_cbn. destruct (N.eqb_spec (pid mod W32) key) as [->|Hne].
  - now rewrite lookup_insert.
  - now rewrite lookup_insert_ne by done.
Qed.
Lemma volumes_one c tw pid v p p' ti to x y ii io :
  ex_pool c pid = Some p -> position ti (pl_tokens p) = Some ii ->
  (match p with PSimple _ => Some ii | PStable _ => position to (pl_tokens p) end) = Some io ->
  vol_update (ex_volumes_of c pid p) ii io x y = Some v ->
  volumes_grow c [mkTrade pid ti x to y] (ex_put_pool (ex_put_volumes (ex_set_twap c tw) pid v) pid p').
Proof.
  intros Hp Hii Hio Hv key i. rewrite vol_at_put. unfold counted. cbn [fmap list_fmap lsum td_pool td_paid td_got].
  assert (slot_in c (mkTrade pid ti x to y) = Some ii) as -> by (unfold slot_in; cbn [td_pool td_in]; now rewrite Hp).
  assert (slot_out c (mkTrade pid ti x to y) = Some io) as ->.
  { unfold slot_out; cbn [td_pool td_in td_out]; rewrite Hp. destruct p; congruence. }
  rewrite !N.add_0_r. destruct (N.eqb_spec (pid mod W32) key) as [<-|Hne]; cbn [andb].
  - rewrite (vol_update_spec _ _ _ _ _ _ i Hv), vol_of_at. cbn [fst snd].
    split; f_equal; (destruct (decide (ii = i)) as [->|]; destruct (decide (io = i)) as [->|]; 
      repeat first [rewrite bool_decide_eq_true_2 by congruence | rewrite bool_decide_eq_false_2 by congruence]; done).
  - lia.
Qed.
Lemma slots_frame c c' d : swap_frame c c' -> slot_in c' d = slot_in c d /\ slot_out c' d = slot_out c d.
Proof.
  intros (_ & _ & _ & _ & _ & H). unfold slot_in, slot_out, ex_pool.
  destruct (ex_pools c !! N.to_nat (td_pool d)) as [p|] eqn:E.
  - eapply Forall2_lookup_l in H as (p' & -> & (Hk & Ht & _) & _); eauto. rewrite Ht. destruct p, p'; try done; split; congruence.
  - replace (ex_pools c' !! N.to_nat (td_pool d)) with (@None Pool); [done|]. symmetry. apply lookup_ge_None. apply lookup_ge_None in E.
    now rewrite <- (Forall2_length _ _ _ H).
Qed.
Lemma counted_frame c c' ts key i : swap_frame c c' ->
  counted (slot_in c') td_paid ts key i = counted (slot_in c) td_paid ts key i /\
  counted (slot_out c') td_got ts key i = counted (slot_out c) td_got ts key i.
Proof.
  intros H. unfold counted. split; f_equal; apply list_fmap_ext; intros _ d _; destruct (slots_frame c c' d H) as [A B]; now rewrite ?A, ?B.
Qed.
Lemma volumes_cons c d c1 ts c' : swap_frame c c1 -> volumes_grow c [d] c1 -> volumes_grow c1 ts c' -> volumes_grow c (d :: ts) c'.
Proof.
  intros Hf H1 H2 key i. destruct (H1 key i) as [A B]. destruct (H2 key i) as [C D]. destruct (counted_frame c c1 ts key i Hf) as [E F].
  rewrite C, D, A, B, E, F. unfold counted. cbn [fmap list_fmap lsum]. lia.
Qed.
Lemma volumes_nil c : volumes_grow c [] c.
Proof. intros key i. unfold counted. cbn [fmap list_fmap lsum]. lia. Qed.

(** ** One trade *)
Lemma ex_pool_swap_trade now c e pid ti x to mn r c' out :
  ex_wf now c -> now <= e_now e -> e_now e < 2 ^ 64 -> ex_pool_swap c e pid ti x to mn r = Some (c', out) ->
  trade_step e r c (mkTrade pid ti x to out) c' /\ volumes_grow c [mkTrade pid ti x to out] c'.
Proof.
  intros Hwf Hle HW H. apply (ex_pool_swap_inv now) in H as (p & p' & tw & ii & io & v & Hp & Hs & Hii & Hio & Hv & ->); auto.
  split; [|eapply volumes_one; eauto]. exists p, p'. split; [done|]. split; [done|]. left. exists mn. done.
Qed.
Lemma ex_pool_swap_by_output_trade now c e pid ti y to mx r c' inp :
  ex_wf now c -> now <= e_now e -> e_now e < 2 ^ 64 -> ex_pool_swap_by_output c e pid ti y to mx r = Some (c', inp) ->
  trade_step e r c (mkTrade pid ti inp to y) c' /\ volumes_grow c [mkTrade pid ti inp to y] c'.
Proof.
  intros Hwf Hle HW H. pose proof H as H0.
  apply (ex_pool_swap_by_output_inv now) in H as (p & p' & tw & ii & v & Hp & Hs & Hii & Hv & ->); auto.
  pose proof (pl_reachable_wf _ _ (ex_wf_pool _ _ _ _ Hwf Hp)) as Hpw.
  pose proof (pl_swap_by_output_spec _ (ex_rates c) (e_now e) _ _ _ _ _ _ _ Hpw Hs) as (_ & _ & _ & _ & _ & Hsi & _).
  split.
  - exists p, p'. split; [done|]. split; [done|]. right. exists mx. done.
  - eapply volumes_one; eauto. destruct p; done.
Qed.

Lemma paid_cons d ts t : paid (d :: ts) t = only (td_in d) t (td_paid d) + paid ts t.
Proof. done. Qed.
Lemma got_cons d ts t : got (d :: ts) t = only (td_out d) t (td_got d) + got ts t.
Proof. done. Qed.

(** ** Chains *)
(** What is known of the trades of one call, all together. *)
Definition traded (e : Env) (r : option (AccountId * N)) (c : Exchange) (l : list Action) (ts : list Trade) (c' : Exchange) : Prop :=
  trades e r c ts c' /\ volumes_grow c ts c' /\ Forall2 obeys l ts /\
  (forall t, total_reserves c' t + got ts t <= total_reserves c t + paid ts t) /\
  (all_simple c \/ forallb (fun a => negb (is_swap a)) l = true ->
   forall t, total_reserves c' t + got ts t = total_reserves c t + paid ts t).

Lemma ex_swap_loop_trades e r l : forall now c acc prev c' acc' res,
  ex_wf now c -> now <= e_now e -> e_now e < 2 ^ 64 -> ac_disjoint acc -> forallb is_swap l = true ->
  ex_swap_loop c e acc r l prev = Some (c', acc', res) ->
  exists ts, traded e r c l ts c' /\ forward prev l ts /\
    (forall t, ac_held acc' t + paid ts t = ac_held acc t + got ts t) /\
    res = match last ts with Some d => Some (td_got d) | None => prev end.
Proof.
  induction l as [|a l IH]; intros now c acc prev c' acc' res Hwf Hle HW Hd Hsw H; cbn [ex_swap_loop] in H.
  - injection H as <- <- <-. exists []. split; [|split; [done|split; [|done]]].
    + split; [now constructor|]. split; [apply volumes_nil|]. split; [constructor|]. unfold got, paid. cbn [fmap list_fmap lsum]. split; intros; lia.
    + intros t. unfold got, paid. cbn [fmap list_fmap lsum]. lia.
  - apply bind_Some in H as ([[c1 acc1] x] & H1 & H). cbn [forallb] in Hsw. apply andb_true_iff in Hsw as [Ha Hsw].
    destruct a as [pid ti am to mn|]; [|done]. cbn [ex_exec_action] in H1.
    apply bind_Some in H1 as (amt & Hamt & H1). apply bind_Some in H1 as (acc2 & Hacc2 & H1).
    apply bind_Some in H1 as ([c2 out] & Hsp & H1). apply bind_Some in H1 as (acc3 & Hacc3 & H1). injection H1 as <- <- <-.
    apply ac_withdraw_spec in Hacc2 as (Hf1 & Hh1 & _); [|done].
    apply ac_deposit_spec in Hacc3 as (Hf2 & Hh2 & _); [|apply Hf1].
    destruct (ex_pool_swap_trade now _ _ _ _ _ _ _ _ _ _ Hwf Hle HW Hsp) as [T1 V1].
    apply (ex_pool_swap_spec now) in Hsp as (Hw & Hsf & Hne & Hmn & Hr1 & Hr2); auto.
    apply (IH (e_now e)) in H as (ts & (T2 & V2 & O2 & R2 & E2) & F2 & Hh & Hres); auto; try apply Hf2; try lia.
    exists (mkTrade pid ti amt to out :: ts). split; [|split; [|split]].
    + split; [econstructor; eauto|]. split; [eapply volumes_cons; eauto|]. split; [|split].
      * constructor; [|done]. split; [done|]. split; [done|]. split; [done|]. cbn [td_paid td_got]. split; [|done].
        intros y ->. now injection Hamt.
      * intros t. rewrite paid_cons, got_cons. cbn [td_in td_out td_paid td_got]. specialize (Hr1 t). specialize (R2 t). lia.
      * intros [Hall|Hno] t; [|done]. rewrite paid_cons, got_cons. cbn [td_in td_out td_paid td_got]. specialize (Hr2 Hall t).
        specialize (E2 (or_introl (all_simple_frame _ _ Hsf Hall)) t). lia.
    + cbn [forward td_paid td_got]. split; [|done]. intros ->. done.
    + intros t. rewrite paid_cons, got_cons. cbn [td_in td_out td_paid td_got]. specialize (Hh t). specialize (Hh1 t). specialize (Hh2 t). lia.
    + rewrite Hres. destruct ts; [done|]. cbn [last]. now destruct (last (t :: ts)) eqn:El; [|apply last_None in El].
Qed.

Definition carried (prev_in : option AccountId) (prev : option N) : option (AccountId * N) :=
  t ← prev_in; x ← prev; Some (t, x).
Lemma ex_output_loop_trades e r l : forall now c acc prev_in prev c' acc' res,
  ex_wf now c -> now <= e_now e -> e_now e < 2 ^ 64 -> ac_disjoint acc ->
  ex_output_loop c e acc r l prev_in prev = Some (c', acc', res) ->
  exists ts, traded e r c l ts c' /\ backward (carried prev_in prev) l ts /\
    (forall t, ac_held acc' t + debt prev_in prev t + paid ts t = ac_held acc t + got ts t) /\
    res = match last ts with Some d => Some (td_paid d) | None => prev end.
Proof.
  induction l as [|a l IH]; intros now c acc prev_in prev c' acc' res Hwf Hle HW Hd H; cbn [ex_output_loop] in H.
  - apply bind_Some in H as (acc1 & H1 & H). injection H as <- <- <-. apply ex_finalize_spec in H1 as [Hf Hh]; [|done].
    exists []. split; [|split; [done|split; [|done]]].
    + split; [now constructor|]. split; [apply volumes_nil|]. split; [constructor|]. unfold got, paid. cbn [fmap list_fmap lsum]. split; intros; lia.
    + intros t. unfold got, paid. cbn [fmap list_fmap lsum]. specialize (Hh t). lia.
  - apply bind_Some in H as (acc1 & Ha1 & H). apply bind_Some in H as ([[c1 acc2] x] & H1 & H).
    destruct a as [|pid ti am to mx]; [done|]. cbn [ex_exec_action act_in] in *.
    apply bind_Some in H1 as (amt & Hamt & H1). apply bind_Some in H1 as ([c2 ain] & Hsp & H1). injection H1 as <- <- <-.
    destruct (ex_pool_swap_by_output_trade now _ _ _ _ _ _ _ _ _ _ Hwf Hle HW Hsp) as [T1 V1].
    apply (ex_pool_swap_by_output_spec now) in Hsp as (Hw & Hsf & Hne & Hmx & Hr1); auto.
    assert (ac_frame acc acc1 /\ (forall t, ac_held acc1 t + debt prev_in prev t = ac_held acc t + only to t amt) /\
      (am = None -> carried prev_in prev = Some (to, amt))) as (Hf1 & Hh1 & Hc).
    { destruct am as [y|].
      - injection Hamt as ->. apply bind_Some in Ha1 as (acc0 & H0 & Ha1).
        apply ex_finalize_spec in H0 as [Hf Hh]; [|done]. apply ac_deposit_spec in Ha1 as (Hf2 & Hh2 & _); [|apply Hf].
        split; [eapply ac_frame_trans; eauto|]. split; [|done]. intros t. specialize (Hh t). specialize (Hh2 t). lia.
      - apply bind_Some in Ha1 as (u & -> & Ha1). apply bind_Some in Ha1 as ([] & Hu & Ha1).
        apply ensure_Some, String.eqb_eq in Hu as ->. injection Ha1 as <-. subst prev. split; [now apply ac_frame_refl|].
        split; [|done]. intros t. cbn [debt]. lia. }
    apply (IH (e_now e)) in H as (ts & (T2 & V2 & O2 & R2 & E2) & F2 & Hh & Hres); auto; try apply Hf1; try lia.
    assert (Hb : forallb (fun a => negb (is_swap a)) l = true).
    { clear -F2. revert F2. generalize (carried (Some ti) (Some ain)). revert ts. induction l as [|a l IH]; intros [|d ts] q F; cbn [backward] in F; try done.
      - destruct a; done.
      - destruct a; [done|]. destruct F as [_ F]. cbn [forallb is_swap negb andb]. eauto. }
    specialize (E2 (or_intror Hb)).
    exists (mkTrade pid ti ain to amt :: ts). split; [|split; [|split]].
    + split; [econstructor; eauto|]. split; [eapply volumes_cons; eauto|]. split; [|split].
      * constructor; [|done]. split; [done|]. split; [done|]. split; [done|]. cbn [td_paid td_got]. split; [|done].
        intros y ->. now injection Hamt.
      * intros t. rewrite paid_cons, got_cons. cbn [td_in td_out td_paid td_got]. specialize (Hr1 t). specialize (E2 t). lia.
      * intros _ t. rewrite paid_cons, got_cons. cbn [td_in td_out td_paid td_got]. specialize (Hr1 t). specialize (E2 t). lia.
    + cbn [backward td_in td_out td_paid td_got]. split; done.
    + intros t. rewrite paid_cons, got_cons. cbn [td_in td_out td_paid td_got]. specialize (Hh t). specialize (Hh1 t). cbn [debt] in Hh. lia.
    + rewrite Hres. destruct ts; [done|]. cbn [last]. now destruct (last (t :: ts)) eqn:El; [|apply last_None in El].
Qed.

Definition is_output (a : Action) : bool := negb (is_swap a).
Lemma ex_execute_trades now c e acc r l prev skip c' acc' res :
  ex_wf now c -> now <= e_now e -> e_now e < 2 ^ 64 -> ac_disjoint acc ->
  ex_execute c e acc r l prev skip = Some (c', acc', res) ->
  exists ts, traded e r c l ts c' /\
    (forall t, ac_held acc' t + paid ts t = ac_held acc t + got ts t) /\
    (forallb is_swap l = true /\ forward prev l ts /\ res = td_got <$> last ts \/
     forallb is_output l = true /\ backward None l ts /\ res = td_paid <$> last ts).
Proof.
  intros Hwf Hle HW Hd H. unfold ex_execute in H.
  apply bind_Some in H as ([] & Hty & H). apply ensure_Some, orb_true_iff in Hty.
  apply bind_Some in H as ([] & Hfr & H). apply bind_Some in H as (a0 & Ha0 & H).
  apply bind_Some in H as ([[c1 acc1] x] & H1 & H). apply bind_Some in H as (_u & _ & H). injection H as <- <- <-.
  destruct l as [|a l]; [done|]. cbn in Ha0. injection Ha0 as ->.
  assert (Hlast : forall (ts : list Trade) c', traded e r c (a0 :: l) ts c' -> exists d, last ts = Some d).
  { intros ts cc (_ & _ & O & _). destruct (last ts) as [d|] eqn:El; [eauto|]. apply last_None in El as ->. inversion O. }
  destruct (is_swap a0) eqn:Ea.
  - destruct Hty as [Hty|Hty]; [|cbn [forallb] in Hty; rewrite Ea in Hty; done].
    eapply ex_swap_loop_trades in H1 as (ts & HT & HF & Hh & Hres); eauto. exists ts. split; [done|]. split; [done|]. left.
    split; [done|]. split; [done|]. destruct (Hlast _ _ HT) as [d Hd2]. rewrite Hres, Hd2. done.
  - destruct Hty as [Hty|Hty]; [cbn [forallb] in Hty; rewrite Ea in Hty; done|].
    eapply ex_output_loop_trades in H1 as (ts & HT & HF & Hh & Hres); eauto. exists ts. split; [done|].
    split; [intros t; specialize (Hh t); cbn [debt] in Hh; lia|]. right.
    split; [done|]. split; [done|]. destruct (Hlast _ _ HT) as [d Hd2]. rewrite Hres, Hd2. done.
Qed.

(** In a chain of exact-output trades the inner hops cancel. *)
Lemma backward_cancel l : forall prev ts t, Forall2 obeys l ts -> backward prev l ts ->
  got ts t + chain_ends l ts t =
  requested l t + paid ts t + (if fresh_start l then 0 else match prev with Some (u, x) => only u t x | None => 0 end).
Proof.
  induction l as [|a l IH]; intros prev ts t HO HB; inversion HO as [|? d ? ts' Ho HO']; subst.
  - done.
  - destruct a as [|pid ti am to mx]; [done|]. cbn [backward] in HB. destruct HB as [Hp HB].
    specialize (IH _ _ t HO' HB). destruct Ho as (_ & Hi & Ht & Hg & _). cbn [act_in act_out] in *.
    rewrite paid_cons, got_cons. cbn [chain_ends]. unfold requested in *. cbn [fmap list_fmap lsum].
    destruct am as [x|].
    + specialize (Hg _ eq_refl). cbn [fresh_start]. rewrite Hg, Ht, Hi in *. destruct (fresh_start l); lia.
    + specialize (Hp eq_refl). subst prev. cbn [fresh_start]. rewrite Ht, Hi in *. destruct (fresh_start l); lia.
Qed.
