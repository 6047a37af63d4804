(** * The exchange: what each method does to the state *)
From Verif Require Import Base BaseLemmas SimplePool SimplePoolProofs SpecSimple SimplePoolInv StableMath StablePool
  SpecStable StablePoolProofs StablePoolInv Rates Echo Twap Account Pool Exchange SpecExchange AccountProofs PoolFacts.

Ltac ex_cbn := cbn [ex_self ex_cfg ex_pools ex_accounts ex_lost ex_twap ex_volumes ex_rates
  ex_set_self ex_set_cfg ex_set_pools ex_set_accounts ex_set_lost ex_set_twap ex_set_volumes ex_set_rates
  ex_put ex_put_pool ex_put_volumes ex_upd] in *.

(** ** Accessors *)
Lemma ex_wf_account now c a acc : ex_wf now c -> ex_account c a = Some acc -> ac_disjoint acc.
Proof.
  intros [_ H] Ha. unfold ex_account in Ha. apply fmap_Some in Ha as (v & Hv & ->). exact (H _ _ Hv).
Qed.
Lemma ex_wf_account_or_new now c a : ex_wf now c -> ac_disjoint (ex_account_or_new c a).
Proof.
  intros Hwf. unfold ex_account_or_new. destruct (ex_account c a) as [acc|] eqn:E; cbn [default from_option Datatypes.id].
  - eapply ex_wf_account; eauto.
  - apply ac_new_disjoint.
Qed.
Lemma ex_wf_pool now c pid p : ex_wf now c -> ex_pool c pid = Some p -> pl_reachable now p.
Proof. intros [H _] Hp. eapply Forall_lookup_1; eauto. Qed.
Lemma ex_wf_mono now now' c : now <= now' -> ex_wf now c -> ex_wf now' c.
Proof. intros Hle [H1 H2]. split; [|done]. eapply Forall_impl; [exact H1|]. intros p. now apply pl_reachable_mono. Qed.

(** ** Sums *)
Lemma total_deposits_put c a acc t :
  total_deposits (ex_put c a acc) t + held_by c a t = total_deposits c t + ac_held acc t.
Proof.
  unfold total_deposits, held_by, ex_account. ex_cbn.
  pose proof (msum_insert (fun (_ : AccountId) v => ac_held (into_current v) t) (ex_accounts c) a (VACurrent acc)) as H.
  unfold contrib in H. cbn [into_current] in H.
  destruct (ex_accounts c !! a) as [v|]; cbn [fmap option_fmap option_map]; exact H.
Qed.
Lemma total_deposits_delete c a t :
  total_deposits (ex_set_accounts c (delete a (ex_accounts c))) t + held_by c a t = total_deposits c t.
Proof.
  unfold total_deposits, held_by, ex_account. ex_cbn.
  pose proof (msum_delete_gen (fun (_ : AccountId) v => ac_held (into_current v) t) (ex_accounts c) a) as H.
  unfold contrib in H. destruct (ex_accounts c !! a) as [v|]; cbn [fmap option_fmap option_map]; exact H.
Qed.
Lemma held_by_le c a t : held_by c a t <= total_deposits c t.
Proof. rewrite <- (total_deposits_delete c a t). lia. Qed.
Lemma total_reserves_put c pid p p' t :
  ex_pool c pid = Some p -> total_reserves (ex_put_pool c pid p') t + pl_reserve p t = total_reserves c t + pl_reserve p' t.
Proof.
  intros Hp. unfold total_reserves. ex_cbn. rewrite list_fmap_insert. apply lsum_insert.
  rewrite list_lookup_fmap. unfold ex_pool in Hp. now rewrite Hp.
Qed.
Lemma pl_reserve_le c pid p t : ex_pool c pid = Some p -> pl_reserve p t <= total_reserves c t.
Proof.
  intros Hp. unfold total_reserves. apply (lsum_lookup_le _ (N.to_nat pid)). rewrite list_lookup_fmap. unfold ex_pool in Hp. now rewrite Hp.
Qed.
Lemma held_by_account c a acc t : ex_account c a = Some acc -> held_by c a t = ac_held acc t.
Proof. intros H. unfold held_by. now rewrite H. Qed.
Lemma held_by_put c a acc b t : held_by (ex_put c a acc) b t = if String.eqb a b then ac_held acc t else held_by c b t.
Proof.
  unfold held_by, ex_account. ex_cbn. destruct (String.eqb_spec a b) as [<-|Hne].
  - now rewrite lookup_insert.
  - now rewrite lookup_insert_ne by done.
Qed.
Lemma ex_account_put c a acc b : ex_account (ex_put c a acc) b = if String.eqb a b then Some acc else ex_account c b.
Proof.
  unfold ex_account. ex_cbn. destruct (String.eqb_spec a b) as [<-|Hne].
  - now rewrite lookup_insert.
  - now rewrite lookup_insert_ne by done.
Qed.
Lemma ex_pool_put c pid p q : is_Some (ex_pool c pid) -> ex_pool (ex_put_pool c pid p) q = if pid =? q then Some p else ex_pool c q.
Proof.
  unfold ex_pool. ex_cbn. intros Hs. destruct (N.eqb_spec pid q) as [<-|Hne].
  - rewrite list_lookup_insert; [done|]. now apply lookup_lt_is_Some.
  - rewrite list_lookup_insert_ne; [done|lia].
Qed.

(** ** Well-formedness of updates *)
Lemma ex_wf_put now c a acc : ex_wf now c -> ac_disjoint acc -> ex_wf now (ex_put c a acc).
Proof. intros [H1 H2] Hd. split; [done|]. ex_cbn. apply map_Forall_insert_2; done. Qed.
Lemma ex_wf_put_pool now c pid p : ex_wf now c -> pl_reachable now p -> ex_wf now (ex_put_pool c pid p).
Proof. intros [H1 H2] Hp. split; [|done]. ex_cbn. apply Forall_insert; done. Qed.

(** Pools keep their place, kind, tokens and decimals. *)
Definition pools_extend (c c' : Exchange) : Prop :=
  forall i p, ex_pools c !! i = Some p -> exists p', ex_pools c' !! i = Some p' /\ pl_same p p'.
Lemma pools_extend_refl c c' : ex_pools c' = ex_pools c -> pools_extend c c'.
Proof. intros H i p Hp. exists p. rewrite H. split; [done|apply pl_same_refl]. Qed.
Lemma pools_extend_trans c1 c2 c3 : pools_extend c1 c2 -> pools_extend c2 c3 -> pools_extend c1 c3.
Proof.
  intros H1 H2 i p Hp. apply H1 in Hp as (q & Hq & Hs). apply H2 in Hq as (r & Hr & Hs2).
  exists r. split; [done|]. eapply pl_same_trans; eauto.
Qed.
Lemma pools_extend_insert c i p p' :
  ex_pools c !! i = Some p -> pl_same p p' -> pools_extend c (ex_set_pools c (<[i := p']> (ex_pools c))).
Proof.
  intros Hp Hs j q Hq. ex_cbn. destruct (decide (i = j)) as [<-|Hne].
  - exists p'. rewrite list_lookup_insert by eauto using lookup_lt_Some. split; [done|]. congruence.
  - exists q. rewrite list_lookup_insert_ne by done. split; [done|apply pl_same_refl].
Qed.
Lemma pools_extend_put c pid p p' : ex_pool c pid = Some p -> pl_same p p' -> pools_extend c (ex_put_pool c pid p').
Proof. apply pools_extend_insert. Qed.

Lemma exact_token_back c c' t : pools_extend c c' -> exact_token c' t -> exact_token c t.
Proof.
  intros He Hx. apply Forall_lookup. intros i p Hp. apply He in Hp as (p' & Hp' & Hs).
  eapply pl_same_exact; eauto. eapply Forall_lookup_1 in Hx; eauto.
Qed.

(** ** Time-weighted averages only change their own records *)
Lemma ex_update_twap_frame c e pid c1 : ex_update_twap c e pid = Some c1 -> exists tw, c1 = ex_set_twap c tw.
Proof.
  unfold ex_update_twap. intros H. destruct (ex_twap c !! pid) as [i|].
  - apply bind_Some in H as ([am|] & _ & H).
    + apply bind_Some in H as (i' & _ & H). injection H as <-. eauto.
    + injection H as <-. exists (ex_twap c). now destruct c.
  - injection H as <-. exists (ex_twap c). now destruct c.
Qed.

(** ** Swaps *)
(** What a chain of swaps leaves alone. *)
Definition swap_frame (c c' : Exchange) : Prop :=
  ex_self c' = ex_self c /\ ex_cfg c' = ex_cfg c /\ ex_accounts c' = ex_accounts c /\ ex_lost c' = ex_lost c /\
  ex_rates c' = ex_rates c /\
  Forall2 (fun p p' => pl_same p p' /\ forall h, pl_share_of p h <= pl_share_of p' h) (ex_pools c) (ex_pools c').
Lemma traded_refl (l : list Pool) : Forall2 (fun p p' => pl_same p p' /\ forall h, pl_share_of p h <= pl_share_of p' h) l l.
Proof. apply Forall_Forall2_diag, Forall_true. intros p. split; [apply pl_same_refl|lia]. Qed.
Lemma swap_frame_refl c : swap_frame c c.
Proof. unfold swap_frame. split_and!; auto. apply traded_refl. Qed.
Lemma swap_frame_trans c1 c2 c3 : swap_frame c1 c2 -> swap_frame c2 c3 -> swap_frame c1 c3.
Proof.
  intros (A1 & A2 & A3 & A4 & A5 & H1) (B1 & B2 & B3 & B4 & B5 & H2). unfold swap_frame. split_and!; try congruence.
  revert H1 H2. generalize (ex_pools c1) (ex_pools c2) (ex_pools c3). intros l1 l2 l3 H1. revert l3.
  induction H1 as [|x y l1 l2 [Hs Hh] H1 IH]; intros l3 H2; inversion H2 as [|? z ? l4 [Hs2 Hh2] H3]; subst; constructor; [|auto].
  split; [eapply pl_same_trans; eauto|]. intros h. specialize (Hh h). specialize (Hh2 h). lia.
Qed.
Lemma swap_frame_extend c c' : swap_frame c c' -> pools_extend c c'.
Proof.
  intros (_ & _ & _ & _ & _ & H) i p Hp. eapply Forall2_lookup_l in H as (p' & Hp' & Hs & _); eauto.
Qed.

(** One trade: the state afterwards. *)
Lemma ex_pool_swap_inv now c e pid ti a to mn r c' out :
  ex_wf now c -> now <= e_now e -> e_now e < 2 ^ 64 ->
  ex_pool_swap c e pid ti a to mn r = Some (c', out) ->
  exists p p' tw ii io v,
    ex_pool c pid = Some p /\
    pl_swap p (ex_rates c) (e_now e) ti a to mn (ex_fees_ref c r) false = Some (p', out) /\
    position ti (pl_tokens p) = Some ii /\
    (match p with PSimple _ => Some ii | PStable _ => position to (pl_tokens p) end) = Some io /\
    vol_update (ex_volumes_of c pid p) ii io a out = Some v /\
    c' = ex_put_pool (ex_put_volumes (ex_set_twap c tw) pid v) pid p'.
Proof.
  intros Hwf Hle HW H. unfold ex_pool_swap in H. apply bind_Some in H as (c1 & Hc1 & H).
  apply ex_update_twap_frame in Hc1 as (tw & ->).
  apply bind_Some in H as (p & Hp & H). apply bind_Some in H as ([p' o] & Hs & H).
  apply bind_Some in H as (ii & Hii & H). apply bind_Some in H as (io & Hio & H). apply bind_Some in H as (v & Hv & H).
  injection H as <- <-. ex_cbn.
  pose proof (ex_wf_pool _ _ _ _ Hwf Hp) as Hpw. apply pl_reachable_wf in Hpw.
  pose proof (pl_swap_spec _ _ _ _ _ _ _ _ _ _ Hpw Hs) as (Hst & _).
  pose proof (pl_step_same _ _ _ _ Hpw Hst) as (Hk & Ht & _). rewrite Ht in *.
  exists p, p', tw, ii, io, v. split_and!; auto.
  destruct p, p'; try done.
Qed.
Lemma ex_pool_swap_by_output_inv now c e pid ti b to mx r c' ain :
  ex_wf now c -> now <= e_now e -> e_now e < 2 ^ 64 ->
  ex_pool_swap_by_output c e pid ti b to mx r = Some (c', ain) ->
  exists p p' tw ii v,
    ex_pool c pid = Some p /\
    pl_swap_by_output p ti b to mx (ex_fees_ref c r) false = Some (p', ain) /\
    position ti (pl_tokens p) = Some ii /\
    vol_update (ex_volumes_of c pid p) ii ii ain b = Some v /\
    c' = ex_put_pool (ex_put_volumes (ex_set_twap c tw) pid v) pid p'.
Proof.
  intros Hwf Hle HW H. unfold ex_pool_swap_by_output in H. apply bind_Some in H as (c1 & Hc1 & H).
  apply ex_update_twap_frame in Hc1 as (tw & ->).
  apply bind_Some in H as (p & Hp & H). apply bind_Some in H as ([p' o] & Hs & H).
  apply bind_Some in H as (ii & Hii & H). apply bind_Some in H as (io & Hio & H). apply bind_Some in H as (v & Hv & H).
  injection H as <- <-. ex_cbn.
  pose proof (ex_wf_pool _ _ _ _ Hwf Hp) as Hpw. apply pl_reachable_wf in Hpw.
  pose proof (pl_swap_by_output_spec _ (ex_rates c) (e_now e) _ _ _ _ _ _ _ Hpw Hs) as (Hst & _ & _ & _ & _ & Hsi & _).
  pose proof (pl_step_same _ _ _ _ Hpw Hst) as (Hk & Ht & _). rewrite Ht in *.
  exists p, p', tw, ii, v. destruct p, p'; try done. injection Hio as <-. split_and!; auto.
Qed.

(** A trade moves [a] of [ti] into the reserves and [out] of [to] out of them. *)
Lemma swap_state now c e pid p p' tw v :
  ex_wf now c -> now <= e_now e -> e_now e < 2 ^ 64 ->
  ex_pool c pid = Some p -> pl_step (ex_rates c) (e_now e) p p' ->
  (forall h, pl_share_of p h <= pl_share_of p' h) ->
  let c' := ex_put_pool (ex_put_volumes (ex_set_twap c tw) pid v) pid p' in
  ex_wf (e_now e) c' /\ swap_frame c c' /\
  (forall t, total_reserves c' t + pl_reserve p t = total_reserves c t + pl_reserve p' t).
Proof.
  intros Hwf Hle HW Hp Hst Hsh c'.
  pose proof (ex_wf_pool _ _ _ _ Hwf Hp) as Hpr. pose proof (pl_reachable_wf _ _ Hpr) as Hpw.
  pose proof (pl_step_same _ _ _ _ Hpw Hst) as Hsame.
  split_and!.
  - apply ex_wf_put_pool; [|eapply pl_step_reachable; eauto]. destruct (ex_wf_mono _ _ _ Hle Hwf) as [H1 H2]. split; done.
  - unfold c', swap_frame. ex_cbn. split_and!; auto. unfold ex_pool in Hp.
    rewrite <- (list_insert_id (ex_pools c) (N.to_nat pid) p Hp) at 1.
    apply Forall2_insert; [apply traded_refl|]. split; auto.
  - intros t. unfold c'. apply (total_reserves_put (ex_put_volumes (ex_set_twap c tw) pid v)). exact Hp.
Qed.

Definition all_simple (c : Exchange) : Prop := Forall is_simple (ex_pools c).
Lemma all_simple_frame c c' : swap_frame c c' -> all_simple c -> all_simple c'.
Proof.
  intros (_ & _ & _ & _ & _ & H) Hs. apply Forall_lookup. intros i p' Hp'.
  eapply Forall2_lookup_r in H as (p & Hp & Hk & _); eauto. pose proof (Forall_lookup_1 _ _ _ _ Hs Hp) as Hsp.
  destruct Hk as (Hk & _). destruct p, p'; done.
Qed.
Lemma ex_pool_simple c pid p : all_simple c -> ex_pool c pid = Some p -> is_simple p.
Proof. intros H Hp. exact (Forall_lookup_1 _ _ _ _ H Hp). Qed.

Lemma ex_pool_swap_spec now c e pid ti a to mn r c' out :
  ex_wf now c -> now <= e_now e -> e_now e < 2 ^ 64 ->
  ex_pool_swap c e pid ti a to mn r = Some (c', out) ->
  ex_wf (e_now e) c' /\ swap_frame c c' /\ ti <> to /\ mn <= out /\
  (forall t, total_reserves c' t + only to t out <= total_reserves c t + only ti t a) /\
  (all_simple c -> forall t, total_reserves c' t + only to t out = total_reserves c t + only ti t a).
Proof.
  intros Hwf Hle HW H. apply (ex_pool_swap_inv now) in H as (p & p' & tw & ii & io & v & Hp & Hs & _ & _ & _ & ->); auto.
  pose proof (ex_wf_pool _ _ _ _ Hwf Hp) as Hpw. apply pl_reachable_wf in Hpw.
  apply pl_swap_spec in Hs as (Hst & Hne & Hmn & _ & _ & H1 & H2 & H3); [|done].
  destruct (swap_state now c e pid p p' tw v) as (Hw & Hf & Hr); auto.
  split_and!; auto.
  - intros t. specialize (H1 t). specialize (Hr t). lia.
  - intros Hall t. specialize (H2 (ex_pool_simple _ _ _ Hall Hp) t). specialize (Hr t). lia.
Qed.
Lemma ex_pool_swap_by_output_spec now c e pid ti b to mx r c' ain :
  ex_wf now c -> now <= e_now e -> e_now e < 2 ^ 64 ->
  ex_pool_swap_by_output c e pid ti b to mx r = Some (c', ain) ->
  ex_wf (e_now e) c' /\ swap_frame c c' /\ ti <> to /\ (forall m, mx = Some m -> ain <= m) /\
  (forall t, total_reserves c' t + only to t b = total_reserves c t + only ti t ain).
Proof.
  intros Hwf Hle HW H. apply (ex_pool_swap_by_output_inv now) in H as (p & p' & tw & ii & v & Hp & Hs & _ & _ & ->); auto.
  pose proof (ex_wf_pool _ _ _ _ Hwf Hp) as Hpw. apply pl_reachable_wf in Hpw.
  apply (pl_swap_by_output_spec p (ex_rates c) (e_now e)) in Hs as (Hst & Hne & Hmx & _ & _ & _ & H2 & H3); [|done].
  destruct (swap_state now c e pid p p' tw v) as (Hw & Hf & Hr); auto.
  split_and!; auto. intros t. specialize (H2 t). specialize (Hr t). lia.
Qed.

(** A chain of exact-input swaps. *)
Lemma ex_swap_loop_spec e r l : forall now c acc prev c' acc' res,
  ex_wf now c -> now <= e_now e -> e_now e < 2 ^ 64 -> ac_disjoint acc -> forallb is_swap l = true ->
  ex_swap_loop c e acc r l prev = Some (c', acc', res) ->
  ex_wf (e_now e) c' /\ swap_frame c c' /\ ac_frame acc acc' /\
  (forall t, total_reserves c' t + ac_held acc' t <= total_reserves c t + ac_held acc t) /\
  (all_simple c -> forall t, total_reserves c' t + ac_held acc' t = total_reserves c t + ac_held acc t).
Proof.
  induction l as [|a l IH]; intros now c acc prev c' acc' res Hwf Hle HW Hd Hsw H; cbn [ex_swap_loop] in H.
  - injection H as <- <- <-. split_and!; [eapply ex_wf_mono; eauto|apply swap_frame_refl|now apply ac_frame_refl|intros; lia|intros; lia].
  - apply bind_Some in H as ([[c1 acc1] x] & H1 & H). cbn [forallb] in Hsw. apply andb_true_iff in Hsw as [Ha Hsw].
    destruct a as [pid ti am to mn|]; [|done]. cbn [ex_exec_action] in H1.
    apply bind_Some in H1 as (amt & Hamt & H1). apply bind_Some in H1 as (acc2 & Hacc2 & H1).
    apply bind_Some in H1 as ([c2 out] & Hsp & H1). apply bind_Some in H1 as (acc3 & Hacc3 & H1). injection H1 as <- <- <-.
    apply ac_withdraw_spec in Hacc2 as (Hf1 & Hh1 & _); [|done].
    apply ac_deposit_spec in Hacc3 as (Hf2 & Hh2 & _); [|apply Hf1].
    apply (ex_pool_swap_spec now) in Hsp as (Hw & Hsf & Hne & _ & Hr1 & Hr2); auto.
    apply (IH (e_now e)) in H as (Hw' & Hsf' & Hf3 & Hr3 & Hr4); auto; try apply Hf2; try lia.
    split_and!; auto; [eapply swap_frame_trans; eauto|eapply ac_frame_trans; [eapply ac_frame_trans|]; eauto| |].
    + intros t. specialize (Hr1 t). specialize (Hr3 t). specialize (Hh1 t). specialize (Hh2 t). lia.
    + intros Hall t. specialize (Hr2 Hall t). specialize (Hr4 (all_simple_frame _ _ Hsf Hall) t). specialize (Hh1 t). specialize (Hh2 t). lia.
Qed.

(** The input of the last exact-output hop, not paid yet. *)
Definition debt (prev_in : option AccountId) (prev : option N) (t : AccountId) : N :=
  match prev_in, prev with Some u, Some x => only u t x | _, _ => 0 end.
Lemma ex_finalize_spec acc prev_in prev acc' :
  ac_disjoint acc -> ex_finalize acc prev_in prev = Some acc' ->
  ac_frame acc acc' /\ forall t, ac_held acc' t + debt prev_in prev t = ac_held acc t.
Proof.
  intros Hd H. destruct prev_in as [u|]; cbn [ex_finalize] in H.
  - apply bind_Some in H as (x & -> & H). apply ac_withdraw_spec in H as (Hf & Hh & _); [|done]. split; auto.
  - injection H as <-. split; [now apply ac_frame_refl|]. intros t. cbn [debt]. lia.
Qed.
Lemma ex_output_loop_spec e r l : forall now c acc prev_in prev c' acc' res,
  ex_wf now c -> now <= e_now e -> e_now e < 2 ^ 64 -> ac_disjoint acc ->
  ex_output_loop c e acc r l prev_in prev = Some (c', acc', res) ->
  ex_wf (e_now e) c' /\ swap_frame c c' /\ ac_frame acc acc' /\
  (forall t, total_reserves c' t + ac_held acc' t + debt prev_in prev t = total_reserves c t + ac_held acc t).
Proof.
  induction l as [|a l IH]; intros now c acc prev_in prev c' acc' res Hwf Hle HW Hd H; cbn [ex_output_loop] in H.
  - apply bind_Some in H as (acc1 & H1 & H). injection H as <- <- <-. apply ex_finalize_spec in H1 as [Hf Hh]; [|done].
    split_and!; [eapply ex_wf_mono; eauto|apply swap_frame_refl|done|]. intros t. specialize (Hh t). lia.
  - apply bind_Some in H as (acc1 & Ha1 & H). apply bind_Some in H as ([[c1 acc2] x] & H1 & H).
    destruct a as [|pid ti am to mx]; [done|]. cbn [ex_exec_action act_in] in *.
    apply bind_Some in H1 as (amt & Hamt & H1). apply bind_Some in H1 as ([c2 ain] & Hsp & H1). injection H1 as <- <- <-.
    apply (ex_pool_swap_by_output_spec now) in Hsp as (Hw & Hsf & Hne & _ & Hr1); auto.
    assert (ac_frame acc acc1 /\ forall t, ac_held acc1 t + debt prev_in prev t = ac_held acc t + only to t amt) as [Hf1 Hh1].
    { destruct am as [y|].
      - injection Hamt as ->. apply bind_Some in Ha1 as (acc0 & H0 & Ha1).
        apply ex_finalize_spec in H0 as [Hf Hh]; [|done]. apply ac_deposit_spec in Ha1 as (Hf2 & Hh2 & _); [|apply Hf].
        split; [eapply ac_frame_trans; eauto|]. intros t. specialize (Hh t). specialize (Hh2 t). lia.
      - apply bind_Some in Ha1 as (u & -> & Ha1). apply bind_Some in Ha1 as ([] & Hu & Ha1).
        apply ensure_Some, String.eqb_eq in Hu as ->. injection Ha1 as <-. subst prev. split; [now apply ac_frame_refl|].
        intros t. cbn [debt]. lia. }
    apply (IH (e_now e)) in H as (Hw' & Hsf' & Hf3 & Hr3); auto; try apply Hf1; try lia.
    split_and!; auto; [eapply swap_frame_trans; eauto|eapply ac_frame_trans; eauto|].
    intros t. specialize (Hr1 t). specialize (Hr3 t). specialize (Hh1 t). cbn [debt] in Hr3. lia.
Qed.

Lemma ex_execute_spec now c e acc r l prev skip c' acc' res :
  ex_wf now c -> now <= e_now e -> e_now e < 2 ^ 64 -> ac_disjoint acc ->
  ex_execute c e acc r l prev skip = Some (c', acc', res) ->
  ex_wf (e_now e) c' /\ swap_frame c c' /\ ac_frame acc acc' /\
  (forall t, total_reserves c' t + ac_held acc' t <= total_reserves c t + ac_held acc t) /\
  (all_simple c \/ forallb (fun a => negb (is_swap a)) l = true ->
     forall t, total_reserves c' t + ac_held acc' t = total_reserves c t + ac_held acc t) /\
  no_frozen c (act_tokens l) = Some tt.
Proof.
  intros Hwf Hle HW Hd H. unfold ex_execute in H.
  apply bind_Some in H as ([] & Hty & H). apply ensure_Some, orb_true_iff in Hty.
  apply bind_Some in H as ([] & Hfr & H). apply bind_Some in H as (a0 & Ha0 & H).
  apply bind_Some in H as ([[c1 acc1] x] & H1 & H). apply bind_Some in H as (_u & _ & H). injection H as <- <- <-.
  destruct l as [|a l]; [done|]. cbn in Ha0. injection Ha0 as ->.
  destruct (is_swap a0) eqn:Ea.
  - destruct Hty as [Hty|Hty]; [|cbn [forallb] in Hty; rewrite Ea in Hty; done].
    eapply ex_swap_loop_spec in H1 as (Hw & Hsf & Hf & H2 & H3); eauto. split_and!; auto.
    intros [Hall|Hno]; [auto|]. cbn [forallb] in Hno. rewrite Ea in Hno. done.
  - apply (ex_output_loop_spec e r (a0 :: l) now) in H1 as (Hw & Hsf & Hf & H2); auto.
    cbn [debt] in H2. split_and!; auto; intros; specialize (H2 t); lia.
Qed.

Lemma ex_execute_legacy c e acc r l prev skip c' acc' res :
  ex_execute c e acc r l prev skip = Some (c', acc', res) -> ac_legacy acc = ∅ -> ac_legacy acc' = ∅.
Proof.
  assert (Hfin : forall acc prev_in prev acc', ex_finalize acc prev_in prev = Some acc' -> ac_legacy acc = ∅ -> ac_legacy acc' = ∅).
  { clear. intros acc [u|] prev acc' H Hl; cbn [ex_finalize] in H; [|congruence].
    apply bind_Some in H as (x & _ & H). eauto using ac_withdraw_legacy. }
  intros H. unfold ex_execute in H.
  apply bind_Some in H as ([] & _ & H). apply bind_Some in H as ([] & _ & H). apply bind_Some in H as (a0 & _ & H).
  apply bind_Some in H as ([[c1 acc1] x] & H & H'). apply bind_Some in H' as (_u & _ & H'). injection H' as <- <- <-.
  destruct (is_swap a0).
  - clear Hfin. revert c acc prev H. induction l as [|a l IH]; intros c acc prev H Hl; cbn [ex_swap_loop] in H; [congruence|].
    apply bind_Some in H as ([[c2 acc2] y] & H1 & H). apply IH in H; auto.
    destruct a; cbn [ex_exec_action] in H1.
    + apply bind_Some in H1 as (amt & Hamt & H1). apply bind_Some in H1 as (acc3 & Hacc2 & H1).
      apply bind_Some in H1 as ([c3 out] & Hsp & H1). apply bind_Some in H1 as (acc4 & Hacc3 & H1). injection H1 as <- <- <-.
      eauto using ac_withdraw_legacy, ac_deposit_legacy.
    + apply bind_Some in H1 as (amt & Hamt & H1). apply bind_Some in H1 as ([c3 ain] & Hsp & H1). congruence.
  - assert (Hgen : forall pi, ex_output_loop c e acc r l pi prev = Some (c1, acc1, x) -> ac_legacy acc = ∅ -> ac_legacy acc1 = ∅); [|eauto].
    clear H. intros pi H. revert c acc pi prev H. induction l as [|a l IH]; intros c acc pi prev H Hl; cbn [ex_output_loop] in H.
    + apply bind_Some in H as (acc2 & H1 & H). injection H as <- <- <-. eauto.
    + apply bind_Some in H as (acc2 & Ha1 & H). apply bind_Some in H as ([[c2 acc3] y] & H1 & H). apply IH in H; auto.
      destruct a as [|pid ti am to mx]; [done|]. cbn [ex_exec_action] in H1.
      apply bind_Some in H1 as (amt & Hamt & H1). apply bind_Some in H1 as ([c3 ain] & Hsp & H1). injection H1 as <- <- <-.
      destruct am.
      * apply bind_Some in Ha1 as (acc0 & H0 & Ha1). eauto using ac_deposit_legacy.
      * apply bind_Some in Ha1 as (u & -> & Ha1). apply bind_Some in Ha1 as ([] & Hu & Ha1). congruence.
Qed.
